(** Concrete systems of actors with join handles. *)
From stdpp Require Import base numbers list list_numbers.
From Coq Require Import Lia.
From Verif Require Import Prio Heap State Model Spec Witness System SystemSpec StopSpec WitnessI WitnessJ WitnessN JoinSpec.

(** Two actors on two mailboxes, three senders; a join handle that was polled, and the last address is dropped. *)
Definition o_ops : list sop := y_ops ++ [SCall (AJoin 0)] ++ replicate 4 (SCall (Step (length (thr (ch y_two))))) ++ [SCall (APollJoin 0)].
Definition o_join : sys := sys_run (sys_init (Some 1)) o_ops.
Definition o_drop : list sop := o_ops ++ [SCall (ADropAddr 0)].
Definition o_last : sys := sys_run (sys_init (Some 1)) o_drop.
Definition o_rest : sys := sys_auto 400 o_last.
(** A handler is running. *)
Definition o_hand : list sop := o_ops ++ sys_sched 6 o_join.
Definition o_run : sys := sys_run (sys_init (Some 1)) o_hand.
Definition o_over : sys := sys_auto 400 (sys_run o_run [SCall (AStopAll 2)]).
(** One actor, a second mailbox that no actor runs; the last address is dropped. *)
Definition o_idle_ops : list sop :=
  [SCall (AMbClone 0); SCall (Step 0); SCall (Step 0); SSpawn 0; SCall (AJoin 0)] ++ replicate 4 (SCall (Step 1)) ++ [SCall (APollJoin 0); SCall (ADropAddr 0)].
Definition o_idle_l : list sop := o_idle_ops ++ sys_sched 100 (sys_run (sys_init None) o_idle_ops).
Definition o_idle : sys := sys_run (sys_init None) o_idle_l.
Ltac no_next := let h := fresh in let H := fresh in intros h H; apply elem_of_list_In in H; vm_compute in H; repeat (destruct H as [H|H]; [done|]); done.
Lemma hands_off_ops : hands_off o_ops.
Proof. no_next. Qed.
Lemma hands_off_drop : hands_off o_drop.
Proof. no_next. Qed.
Lemma hands_off_hand : hands_off o_hand.
Proof. no_next. Qed.
Lemma hands_off_idle : hands_off o_idle_l.
Proof. no_next. Qed.
Lemma absent {A} (p : A → bool) x l : p x = true → existsb p l = false → x ∉ l.
Proof. intros H1 H2 H%elem_of_list_In. assert (existsb p l = true); [|congruence]. apply existsb_exists. eauto. Qed.
Lemma present {A} (p : A → bool) x l : (∀ y, p y = true → y = x) → existsb p l = true → x ∈ l.
Proof. intros H1 (y & Hy & Hp)%existsb_exists. apply H1 in Hp as <-. by apply elem_of_list_In. Qed.
Lemma stays_open : ∃ c l, hands_off l ∧ uncancelled l ∧ let z := sys_run (sys_init c) l in (∀ o, ¬ inner z o) ∧ ¬ some_actor z ∧
  0 < length (tk z) ∧ strong_addresses (ch z) + strong_futures (ch z) = 0 ∧
  ∃ j x, jhs (ch z) !! j = Some x ∧ jh_live x = true ∧ join_pending (ch z) j ∧ ¬ woken (ch z) (jh_wk x) ∧ newly (ch z) (step (ch z) (APollJoin j)) (EvJoin j false).
Proof.
  exists None, o_idle_l. split; [exact hands_off_idle|]. split; [no_next|]. cbv zeta.
  split; [apply rest_spec; vm_compute; reflexivity|]. split; [|split; [vm_compute; lia|split; [by vm_compute|]]].
  { intros (i & t & Ht & Hd). apply Hd. assert (tk (sys_run (sys_init None) o_idle_l) = [TK 0 TDone]) as E by by vm_compute. rewrite E in Ht. clear E Hd. destruct i as [|i]; [injection Ht as <-; reflexivity|discriminate Ht]. }
  exists 0. eexists. split; [vm_compute; reflexivity|]. split; [reflexivity|]. split; [split|split].
  - apply (present (λ e, match e with EvJoin 0 false => true | _ => false end)); [|vm_compute; reflexivity]. intros []; try discriminate. repeat case_match; try discriminate. reflexivity.
  - apply (absent (λ e, match e with EvJoin 0 true => true | _ => false end)); [reflexivity|vm_compute; reflexivity].
  - apply (absent (Nat.eqb 0)); [vm_compute; reflexivity|vm_compute; reflexivity].
  - eexists [_]. split; [unfold between; vm_compute; reflexivity|by apply elem_of_list_singleton].
Qed.
(** What a system of two stopped actors is like. *)
Definition all_gone (y : sys) : bool :=
  forallb (λ t, match t_st t with TDone => true | _ => false end) (tk y) && forallb (λ h, match h_st h with HMailbox => false | _ => true end) (hols (ch y)).
Lemma all_gone_spec y : all_gone y = true → ¬ some_actor y ∧ no_other_mailbox y.
Proof.
  intros [H1 H2]%andb_true_iff. rewrite forallb_forall in H1, H2. split.
  - intros (i & t & Ht & Hd). apply Hd. apply elem_of_list_lookup_2, elem_of_list_In, H1 in Ht. destruct (t_st t); done.
  - intros h x Hx E. apply elem_of_list_lookup_2, elem_of_list_In, H2 in Hx. by rewrite E in Hx.
Qed.
Lemma joined y : existsb (λ e, match e with EvJoin 0 false => true | _ => false end) (log (ch y)) = true →
  existsb (λ e, match e with EvJoin 0 true => true | _ => false end) (log (ch y)) = false → join_pending (ch y) 0.
Proof.
  intros H1 H2. split; [eapply present; [|exact H1]; intros []; try discriminate; repeat case_match; try discriminate; reflexivity|].
  eapply absent; [|exact H2]. reflexivity.
Qed.
Lemma o_rest_reachable : sys_reachable o_rest.
Proof. apply sys_auto_reachable. by eexists _, _. Qed.
(** The join handle of [o_over] is polled. *)
Definition o_done : sys := sys_step o_over (SCall (APollJoin 0)).
Lemma o_done_reachable : sys_reachable o_done.
Proof.
  assert (sys_reachable o_over) as (c & l & E).
  { apply sys_auto_reachable. exists (Some 1), (o_hand ++ [SCall (AStopAll 2)]). unfold o_run, sys_run. symmetry. apply fold_left_app. }
  exists c, (l ++ [SCall (APollJoin 0)]). unfold o_done. rewrite E. symmetry. apply fold_left_app.
Qed.
Lemma o_last_run : no_other_mailbox o_last.
Proof.
  assert (tk o_last = [TK 0 TStart; TK 1 TStart]) as Et by (vm_compute; reflexivity).
  assert (length (hols (ch o_last)) = 2) as El by (vm_compute; reflexivity).
  intros h x Hx _. apply lookup_lt_Some in Hx. rewrite El in Hx. exists h. rewrite Et. clear Et El. destruct h as [|[|h]]; [exists (TK 0 TStart)|exists (TK 1 TStart)|lia]; (split; [reflexivity|split; [reflexivity|discriminate]]).
Qed.
