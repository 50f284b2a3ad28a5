(** Priorities of messages.  Model of xtra/src/chan/priority.rs. *)
From stdpp Require Import base numbers list.

(** priority.rs:3-7  [enum Priority { Valued(u32), Shutdown }], with the derived
    (lexicographic, variants in declaration order) [Ord].  The payload of
    [Valued] is an unbounded [N] instead of a [u32]: every u32 is covered. *)
Inductive prio := Valued (n : N) | PShutdown.

Global Instance prio_eq_dec : EqDecision prio.
Proof. solve_decision. Defined.

(** priority.rs:3  [#[derive(Ord)] on Priority]: [Valued(a)] vs [Valued(b)] by
    value, every [Valued] below [Shutdown]. *)
Definition prio_cmp (a b : prio) : comparison :=
  match a, b with
  | Valued m, Valued n => N.compare m n
  | Valued _, PShutdown => Lt
  | PShutdown, Valued _ => Gt
  | PShutdown, PShutdown => Eq
  end.

(** priority.rs:3  [a <= b] through the derived [PartialOrd]. *)
Definition prio_leb (a b : prio) : bool :=
  match prio_cmp a b with Gt => false | _ => true end.

(** std: derived [Ord] of [Option<Priority>] ([None] below every [Some]); used by
    chan.rs:177 and chan.rs:438. *)
Definition oprio_cmp (a b : option prio) : comparison :=
  match a, b with
  | None, None => Eq
  | None, Some _ => Lt
  | Some _, None => Gt
  | Some x, Some y => prio_cmp x y
  end.
