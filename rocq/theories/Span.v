(** Model of the [tracing] instrumentation (instrumentation/tracing.rs, envelope.rs:88-91,105-119,183-186,195-209,
    dispatch_future.rs:78-102,137), on top of the channel model.

    Every call is made while some span is current on its thread, or none.  The subscriber records the spans of xtra
    ([debug_span!]) or filters them all out.  The closing of spans and their fields are left out. *)
From stdpp Require Import base numbers list.
From Verif Require Import Prio Heap State Model.

(** A message with instrumentation: a [ReturningEnvelope] or a [BroadcastEnvelopeConcrete]. *)
Inductive who := One (m : nat) | All (b : nat).
(** envelope.rs:249: [Shutdown] has none. *)
Definition who_b (b : bmsg) : option who := match b with BM i _ => Some (All i) | BStop _ => None end.
Definition who_p (p : payload) : option who := match p with PU m => Some (One (um_id m)) | PB b => who_b b end.
Definition who_a (a : amsg) : option who := match a with ToOne m => Some (One (um_id m)) | ToAll b => who_b b | Shut => None end.

(** A span of the program, or one that xtra made (its position in [p_sp]); [None] stands for [Span::none()]. *)
Inductive sref := User (k : nat) | Xtra (n : nat).
Inductive sname :=
| NRequest (w : who)  (** "xtra_actor_request", tracing.rs:20-25 *)
| NWaiting (w : who)  (** "xtra_message_waiting_for_actor", tracing.rs:27-28 *)
| NHandler (w : who). (** "xtra_message_handler", tracing.rs:44-47 *)
Record span := SPN { sp_name : sname; sp_parent : option sref }.
(** tracing.rs:6-9 [Instrumentation]. *)
Record instr := IN { in_parent : option sref; in_waiting : option sref }.

(** The channel; whether the subscriber records the spans of xtra; the spans that xtra made; the span that is current on
    the thread of each call; the instrumentation of each message, from the moment it is started (before that it is
    [Instrumentation::empty()]); for each handler invoked, newest first, the span it runs in; whether the assertion
    envelope.rs:89,184 failed. *)
Record spans := PS { p_ch : state; p_on : bool; p_sp : list span; p_ctx : list (option sref);
                     p_in : list (who * instr); p_ex : list (nat * amsg * option sref); p_bad : bool }.

Definition whoeqb (a b : who) : bool := match a, b with One i, One j | All i, All j => i =? j | _, _ => false end.
Definition instr_of (w : who) (l : list (who * instr)) : instr :=
  match List.find (λ x, whoeqb w (fst x)) l with Some x => snd x | None => IN None None end.

(** [debug_span!(parent: p, ..).or_current()] where [c] is current. *)
Definition new_span (x : spans) (n : sname) (p c : option sref) : spans * option sref :=
  if p_on x then (PS (p_ch x) (p_on x) (p_sp x ++ [SPN n p]) (p_ctx x) (p_in x) (p_ex x) (p_bad x), Some (Xtra (length (p_sp x))))
  else (x, c).

(** envelope.rs:88-91,183-186 [start_span] with tracing.rs:19-34 [started], while [c] is current. *)
Definition start_span (w : who) (c : option sref) (x : spans) : spans :=
  let bad := match in_parent (instr_of w (p_in x)) with None => false | Some _ => true end in
  let '(x1, parent) := new_span x (NRequest w) c c in
  let '(x2, waiting) := new_span x1 (NWaiting w) parent c in
  PS (p_ch x2) (p_on x2) (p_sp x2) (p_ctx x2) ((w, IN parent waiting) :: p_in x2) (p_ex x2) (p_bad x2 || bad).

(** tracing.rs:40-53 [apply], for the dispatch future [r] of the message [a], while [c] is current: inside
    [parent.in_scope] the parent is current, unless it is [Span::none()]. *)
Definition apply_span (w : who) (r : nat) (a : amsg) (c : option sref) (x : spans) : spans :=
  let cur := match in_parent (instr_of w (p_in x)) with Some p => Some p | None => c end in
  let '(x1, executing) := new_span x (NHandler w) cur cur in
  PS (p_ch x1) (p_on x1) (p_sp x1) (p_ctx x1) (p_in x1) ((r, a, executing) :: p_ex x1) (p_bad x1).

(** Begin a call [o] while [c] is current on its thread, or [Step t]: the call [t] performs its next action, and [c]
    plays no role.  [start_span] is the beginning of the action [USendLock] (chan.rs:113,143-145). *)
Inductive pop := PDo (c : option sref) (o : op).
Definition instrument (c : option sref) (o : op) (x : spans) : spans :=
  match o with
  | Step t =>
      match thr (p_ch x) !! t, p_ctx x !! t with
      | Some (USendLock _ p _ :: _), Some d => match who_p p with Some w => start_span w d x | None => x end
      | _, _ => x
      end
  | ARun r =>
      match hols (p_ch x) !! r with
      | Some (HO _ (HDispNew a) _ _) => match who_a a with Some w => apply_span w r a c x | None => x end
      | _ => x
      end
  | _ => x
  end.
Definition p_step (x : spans) (i : pop) : spans :=
  let '(PDo c o) := i in
  let x1 := instrument c o x in
  let s := step (p_ch x1) o in
  PS s (p_on x1) (p_sp x1) (p_ctx x1 ++ replicate (length (thr s) - length (p_ctx x1)) c) (p_in x1) (p_ex x1) (p_bad x1).
Definition p_init (on : bool) (k : option nat) : spans := PS (init k) on [] [] [] [] false.
Definition p_run (x : spans) (l : list pop) : spans := fold_left p_step l x.
