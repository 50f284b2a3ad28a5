(** Concrete systems of actors. *)
From stdpp Require Import base numbers list list_numbers.
From Verif Require Import Prio Heap State Model Spec System SystemSpec.

(** Some schedule: calls in progress first, then the tasks in turn; handlers return 7, [started] returns [Ok]. *)
Definition next_inner (y : sys) : option sop :=
  match List.find (λ t, match thr (ch y) !! t with Some (_ :: _) => true | _ => false end) (seq 0 (length (thr (ch y)))) with
  | Some t => Some (SCall (Step t))
  | None =>
      match List.find (λ i, match tk y !! i with Some t => match task_step t 0 (ch y) with Some _ => true | None => false end | None => false end) (seq 0 (length (tk y))) with
      | Some i => Some (STask i (match tk y !! i with Some (TK _ TStart) => 0 | _ => 7 end))
      | None => None
      end
  end.
Fixpoint sys_auto (n : nat) (y : sys) : sys :=
  match n with 0 => y | S n => match next_inner y with Some l => sys_auto n (sys_step y l) | None => y end end.
(** Capacity 1, two actors on two mailboxes; three senders, one of them blocked, nothing received yet. *)
Definition y_ops : list sop :=
  [SCall (AMbClone 0); SCall (Step 0); SCall (Step 0); SSpawn 0; SSpawn 1] ++
  flat_map (λ f, [SCall (ASend 0); SCall (APollSend f)] ++ flat_map (λ _, map (λ t, SCall (Step t)) (seq 0 6)) (seq 0 6)) [0; 1; 2].
Definition y_two : sys := sys_run (sys_init (Some 1)) y_ops.
Lemma reach_y_two : sys_reachable y_two.
Proof. by eexists _, _. Qed.
(** ... and what it comes to. *)
Definition y_rest : sys := sys_auto 400 y_two.
(** A sender, an actor; the sender's address is dropped before the actor begins. *)
Definition y_last : sys := sys_run (sys_init None)
  ([SSpawn 0] ++ [SCall (ASend 0); SCall (APollSend 0)] ++ flat_map (λ _, [SCall (Step 0)]) (seq 0 8) ++ [SCall (ADropSend 0); SCall (ADropAddr 0)]).
Lemma sys_auto_reachable n y : sys_reachable y → sys_reachable (sys_auto n y).
Proof.
  revert y. induction n as [|n IH]; intros y Hy; [done|]. cbn. destruct (next_inner y) as [l|]; [|done]. apply IH.
  destruct Hy as (c & k & ->). exists c, (k ++ [l]). symmetry. apply fold_left_app.
Qed.
