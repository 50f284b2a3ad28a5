(** Concrete systems of actors: stopping. *)
From stdpp Require Import base numbers list list_numbers.
From Verif Require Import Prio Heap State Model Spec System SystemSpec StopSpec WitnessI.

(** The schedule of [sys_auto]. *)
Fixpoint sys_sched (n : nat) (y : sys) : list sop :=
  match n with 0 => [] | S n => match next_inner y with Some l => l :: sys_sched n (sys_step y l) | None => [] end end.
(** Two actors, the first of them in a handler. *)
Definition l_hand : list sop := y_ops ++ sys_sched 6 y_two.
Definition y_hand : sys := sys_run (sys_init (Some 1)) l_hand.
(** ... and it calls [stop_all]; now the first actor has stopped, the second got the message. *)
Definition y_told : sys := sys_auto 25 (sys_step y_hand (SCall (AStopAll 2))).
(** ... or it calls [stop_self]. *)
Definition l_self : list sop := l_hand ++ SCall (AStopSelf 2) :: sys_sched 400 (sys_step y_hand (SCall (AStopSelf 2))).
Definition y_self : sys := sys_run (sys_init (Some 1)) l_self.
Lemma reach_y_hand : sys_reachable y_hand.
Proof. by eexists _, _. Qed.
Lemma reach_y_told : sys_reachable y_told.
Proof.
  apply sys_auto_reachable. exists (Some 1), (l_hand ++ [SCall (AStopAll 2)]). unfold y_hand, sys_run. rewrite fold_left_app. cbn [fold_left]. reflexivity.
Qed.
(** ... [stop_all] has begun in the first of the two actors. *)
Definition l_all : list sop := l_hand ++ [SCall (AStopAll 2)].
Definition y_all : sys := sys_run (sys_init (Some 1)) l_all.
(** ... and what its calls and the second actor do then. *)
Definition l_next : list sop := sys_sched 24 (sys_step y_all (SCall (Step (length (thr (ch y_all)) - 1)))).
