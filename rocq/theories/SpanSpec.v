(** Vocabulary for statements about spans. *)
From stdpp Require Import base numbers list.
From Verif Require Import State Model Span.

(** The first poll of the send future of message [w] was made, by the run [l] from [x], while [c] was current. *)
Definition sent_under (x : spans) (l : list pop) (w : who) (c : option sref) : Prop :=
  ∃ l1 l2 f sf p k, l = l1 ++ PDo c (APollSend f) :: l2 ∧ sfs (p_ch (p_run x l1)) !! f = Some sf ∧
    sf_live sf = true ∧ sf_st sf = SNew p k ∧ who_p p = Some w.
(** The dispatch future [r] was first polled, or asked for its span, while [c] was current. *)
Definition ran_under (x : spans) (l : list pop) (r : nat) (c : option sref) : Prop :=
  ∃ l1 l2 h a, l = l1 ++ PDo c (ARun r) :: l2 ∧ hols (p_ch (p_run x l1)) !! r = Some h ∧ h_st h = HDispNew a.
(** The handlers invoked, newest first. *)
Fixpoint handled (l : list ev) : list (nat * amsg) :=
  match l with EvHandle r a :: l => (r, a) :: handled l | _ :: l => handled l | [] => [] end.
(** [n] is the span number [i] that xtra made, with parent [p]. *)
Definition is_span (x : spans) (i : nat) (n : sname) (p : option sref) : Prop := p_sp x !! i = Some (SPN n p).
(** How many spans xtra made with this name. *)
Definition named (x : spans) (n : sname) : nat :=
  length (List.filter (λ s, match sp_name s, n with
    | NRequest a, NRequest b | NWaiting a, NWaiting b | NHandler a, NHandler b => whoeqb b a | _, _ => false end) (p_sp x)).
(** The message was accepted by the channel. *)
Definition accepted (w : who) (s : state) : Prop :=
  match w with One m => EvAccept m ∈ log s | All b => ∃ n qs, EvBcast (BM b n) qs ∈ log s end.
(** The span that the handler of [a] in the dispatch future [r] runs in. *)
Definition runs_in (x : spans) (r : nat) (a : amsg) (e : option sref) : Prop := (r, a, e) ∈ p_ex x.
(** How many handlers were invoked for the message. *)
Definition handlers (w : who) (s : state) : nat :=
  length (List.filter (λ y, match who_a (snd y) with Some v => whoeqb w v | None => false end) (handled (log s))).
(** The calls and actions alone. *)
Definition plain (i : pop) : op := match i with PDo _ o => o end.
