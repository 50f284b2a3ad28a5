(** Concrete systems of actors: a handler panics. *)
From stdpp Require Import base numbers list list_numbers.
From Verif Require Import Prio Heap State Model Spec System SystemSpec StopSpec WitnessI WitnessJ.

(** The handler of the first of the two actors of [y_hand] panics. *)
Definition l_panic : list sop := l_hand ++ [SCancel 0].
Definition y_panic : sys := sys_run (sys_init (Some 1)) l_panic.
(** ... and what it comes to. *)
Definition l_calm : list sop := l_panic ++ sys_sched 400 y_panic.
Definition y_calm : sys := sys_run (sys_init (Some 1)) l_calm.
