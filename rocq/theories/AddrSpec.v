(** Specification vocabulary for the identity of addresses. *)
From stdpp Require Import base numbers list.
From Verif Require Import AddrEq.

Definition wreachable (w : world) : Prop := ∃ ops, w = wrun start ops.
(** [a] is an address or message channel that exists in [w]. *)
Definition exists_in (w : world) (a : handle) : Prop := ∃ i, handles w !! i = Some a ∧ hd_live a = true.
Definition sender (a : handle) : Prop := hd_policy a ≠ PRx.
(** It keeps the actor alive. *)
Definition strong (a : handle) : Prop := hd_policy a = PStrong ∨ hd_policy a = PEither true.
Definition same_channel (a b : handle) : Prop := hd_chan a = hd_chan b.
Definition same_strength (a b : handle) : Prop := strong a ↔ strong b.
(** The Rust types of [a] and [b] are the same (values of [Either] share one type). *)
Definition same_type (a b : handle) : Prop :=
  hd_erased a = hd_erased b ∧
  match hd_policy a, hd_policy b with
  | PStrong, PStrong | PWeak, PWeak | PEither _, PEither _ | PRx, PRx => True
  | _, _ => False
  end.
(** What a chain of conversions does to the strength. *)
Fixpoint strength_after (b : Prop) (vs : list conv) : Prop :=
  match vs with
  | [] => b
  | CDowngrade :: vs | CAddress :: vs => strength_after False vs
  | CUpgrade :: vs => strength_after True vs
  | _ :: vs => strength_after b vs
  end.
(** The strong addresses and message channels of channel number [c]. *)
Definition strong_handles (c : nat) (w : world) : nat :=
  length (List.filter (λ a, hd_live a && (hd_chan a =? c) &&
    match hd_policy a with PStrong | PEither true => true | _ => false end) (handles w)).
