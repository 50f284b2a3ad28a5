(** Vocabulary for the completion of calls. *)
From stdpp Require Import base numbers list list_numbers.
From Verif Require Import Prio Heap State Model Spec.

(** In whatever order the calls in progress perform their actions: if no further call begins, after finitely many
    actions none is in progress any more. *)
Inductive settles : state → Prop :=
| settles_intro s : (∀ t u, next_action s t u → settles (step s (Step t))) → settles s.

(** The call of thread [t] performs finitely many actions and is then complete, whatever happens in between: any
    actions of other calls in progress, and any number of new calls. *)
Inductive finishes (t : nat) : state → Prop :=
| finishes_done s : thr s !! t = Some [] → finishes t s
| finishes_more s : (∀ ops, Step t ∉ ops → finishes t (step (run s ops) (Step t))) → finishes t s.
