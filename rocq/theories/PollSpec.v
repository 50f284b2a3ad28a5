(** Vocabulary for receive futures that are polled. *)
From stdpp Require Import base numbers list.
From Verif Require Import Prio Heap State Model Spec.

(** The receive future number [r] returned Pending and has since been sent [c] by the channel. *)
Definition notified (s : state) (r : nat) (c : ctrl) : Prop :=
  ∃ h o rx, hols s !! r = Some h ∧ h_st h = HRecvWait o ∧ ones s !! o = Some (ON rx (OFull c)).
(** Not completed and not dropped. *)
Definition receiving (h : holder) : Prop := match h_st h with HRecvNew | HRecvBusy | HRecvWait _ => True | _ => False end.
(** There is something to receive for [h]: a message, a broadcast, or that the addresses are gone. *)
Definition offered (s : state) (h : holder) : Prop := uq s ≠ [] ∨ backlog s (h_bq h) ≠ [] ∨ txc s = 0.
(** No mailbox has two receive futures. *)
Definition one_receiver (s : state) : Prop :=
  ∀ r r' h h', hols s !! r = Some h → hols s !! r' = Some h' → receiving h → receiving h' → h_bq h = h_bq h' → r = r'.
(** At no time in the execution [l] did a mailbox have two receive futures. *)
Definition one_at_a_time (c : option nat) (l : list op) : Prop := ∀ l1 l2, l = l1 ++ l2 → one_receiver (run (init c) l1).
(** How many actions the call [t] performs in [l], if it is not finished before. *)
Definition turns (t : nat) (l : list op) : nat := length (List.filter (λ o, match o with Step i => i =? t | _ => false end) l).
(** What a receive future returns that was sent [c]. *)
Definition answers (c : ctrl) (a : amsg) : Prop :=
  match c, a with CNewMsg m, ToOne n => n = m | CNewBroadcast, ToAll _ => True | CShutdown, Shut => True | _, _ => False end.
(** Between [s] and [z] nothing happened and no message moved: the queued messages, the blocked senders and the
    broadcasts of the mailboxes are the same and in the same order. *)
Definition unmoved (s z : state) : Prop :=
  uq z = uq s ∧ log z = log s ∧ ws1 z = ws1 s ∧ wsA z = wsA s ∧ ∀ b, owned_queue z b → backlog z b = backlog s b.
