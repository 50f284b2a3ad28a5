(** Concrete executions: sinks. *)
From stdpp Require Import base numbers list.
From Verif Require Import Prio Heap State Model Lib Spec Sink SinkSpec.

Definition settle_k : list kop := flat_map (λ _, map (λ t, KMain (Step t)) (seq 0 12)) (seq 0 6).
Definition calm (l : list kop) : list kop := flat_map (λ o, o :: settle_k) l.
(** The only address becomes a sink; an item is fed and handled, with a poll before and after; feeding before the
    second poll panics; then a second item is fed. *)
Definition k_ops1 : list kop :=
  calm [KItem; KFlush; KResult; KItem; KMain (ANext 0); KMain (APollRecv 1); KMain (ADispatch 1); KMain (ARun 1); KMain (AFinish 1 0)].
Definition k_ops2 : list kop := k_ops1 ++ calm [KFlush; KResult; KItem; KFlush; KResult].
