(** Model of the identity of addresses and message channels: equality, order, hash and
    conversions (address.rs, message_channel.rs, chan/ptr.rs), for any number of channels.

    Only what these functions look at is kept of a channel: where its [Arc] allocation is,
    how many pointers own the allocation and the sender count. *)
From stdpp Require Import base numbers list.
From Coq Require Import Lia.

(** chan.rs:41-46 [Chan], behind the [Arc] of ptr.rs:19.  [ch_loc] is the memory location
    ([Arc::as_ptr]); [ch_arcs] the strong count of the [Arc]; [ch_tx] is [sender_count]. *)
Record channel := CH { ch_loc : nat; ch_arcs : nat; ch_tx : nat }.

(** ptr.rs:124,162,166-171,175: the reference-count policies. *)
Inductive policy := PStrong | PWeak | PEither (strong : bool) | PRx.

(** ptr.rs:248-250,260-262,280-285,299-301 [is_strong] of each policy. *)
Definition is_strong (p : policy) : bool :=
  match p with PStrong => true | PWeak => false | PEither b => b | PRx => true end.

(** address.rs:65 [Address(Ptr<A, Rc>)] (ptr.rs:15-21), mailbox.rs:11-14 [Mailbox] (policy
    [PRx]), and message_channel.rs:66-68 [MessageChannel] (a boxed [Address]; [hd_erased]).
    [hd_chan] is the channel the [Arc] points to, as an index into the channels ever
    created. *)
Record handle := HD { hd_chan : nat; hd_policy : policy; hd_erased : bool; hd_live : bool }.

Record world := W { chans : list channel; handles : list handle }.
Definition start : world := W [] [].

(** ptr.rs:63-65 [Ptr::inner_ptr], message_channel.rs:349-351 [to_inner_ptr]. *)
Definition inner_ptr (w : world) (h : handle) : nat :=
  match chans w !! hd_chan h with Some c => ch_loc c | None => 0 end.

(** address.rs:217-219, message_channel.rs:132-137 [same_actor]. *)
Definition same_actor (w : world) (a b : handle) : bool := inner_ptr w a =? inner_ptr w b.
(** address.rs:282-286, message_channel.rs:200-209 [PartialEq::eq]. *)
Definition addr_eq (w : world) (a b : handle) : bool :=
  same_actor w a b && Bool.eqb (is_strong (hd_policy a)) (is_strong (hd_policy b)).
(** [Ord for bool] of std: [false < true]. *)
Definition bool_cmp (a b : bool) : comparison :=
  match a, b with true, false => Gt | false, true => Lt | _, _ => Eq end.
(** address.rs:294-301 [PartialOrd::partial_cmp]. *)
Definition partial_cmp (w : world) (a b : handle) : option comparison :=
  Some (match Nat.compare (inner_ptr w a) (inner_ptr w b) with
        | Eq => bool_cmp (is_strong (hd_policy a)) (is_strong (hd_policy b))
        | c => c
        end).
(** address.rs:303-307 [Ord::cmp]. *)
Definition addr_cmp (w : world) (a b : handle) : comparison :=
  Nat.compare (inner_ptr w a) (inner_ptr w b).
(** What a [Hasher] is fed. *)
Inductive hwrite := WUsize (n : nat) | WU8 (n : nat).
(** address.rs:309-315, message_channel.rs:211-220,384-388 [Hash::hash] ([finish] does not
    change the hasher). *)
Definition addr_hash (w : world) (a : handle) : list hwrite :=
  [WUsize (inner_ptr w a); WU8 (if is_strong (hd_policy a) then 1 else 0)].

(** ptr.rs:237-302 [make_new] / [destroy] act on [sender_count] for strong policies
    ([Rx] acts on [receiver_count], which is not kept here). *)
Definition counts (p : policy) : nat :=
  match p with PStrong | PEither true => 1 | _ => 0 end.

(** A pointer to channel [c] (which is [k]) with policy [p] comes into being (one more owner of the
    [Arc]; the sender count goes up if the policy counts). *)
Definition add_handle (c : nat) (p : policy) (e : bool) (k : channel) (w : world) : world :=
  W (<[c := CH (ch_loc k) (S (ch_arcs k)) (ch_tx k + counts p)]> (chans w))
    (handles w ++ [HD c p e true]).

(** Conversions that yield a new handle. *)
Inductive conv :=
| CClone       (* address.rs:271-275, message_channel.rs:222-231, mailbox.rs:69-76 *)
| CDowngrade   (* address.rs:101-103,109-111, message_channel.rs:239-243,252-256 *)
| CAsEither    (* address.rs:120-122, message_channel.rs:266-270 *)
| CUpgrade     (* address.rs:91-93 [try_upgrade], ptr.rs:56-61,126-157 *)
| CAddress     (* mailbox.rs:49-51 [Mailbox::address] *)
| CChannel.    (* message_channel.rs:81-89,162-172: consumes the address *)

(** The policy of the result, if the conversion exists for handles of that type
    (impl blocks of address.rs and message_channel.rs) and succeeds. *)
Definition conv_policy (v : conv) (h : handle) (k : channel) : option policy :=
  match v, hd_policy h with
  | CClone, PRx => if hd_erased h then None else Some PRx
  | CClone, p => Some p
  | CDowngrade, (PStrong | PEither _) => Some PWeak
  | CAsEither, PStrong => Some (PEither true)
  | CAsEither, PWeak => Some (PEither false)
  | CAsEither, PEither b => Some (PEither b)
  | CUpgrade, PWeak => if hd_erased h then None else if ch_tx k =? 0 then None else Some PStrong
  | CAddress, PRx => Some PWeak
  | CChannel, (PStrong | PWeak | PEither _) => if hd_erased h then None else Some (hd_policy h)
  | _, _ => None
  end.

(** Perform a conversion on handle [i]; the result is a new handle. *)
Definition convert (v : conv) (i : nat) (w : world) : option world :=
  match handles w !! i with
  | Some h =>
      if hd_live h then
        match chans w !! hd_chan h with
        | Some k =>
            match conv_policy v h k with
            | Some p =>
                match v with
                | CChannel =>
                    (* the address moves into the box: no count changes *)
                    Some (W (chans w) (<[i := HD (hd_chan h) (hd_policy h) (hd_erased h) false]> (handles w)
                                         ++ [HD (hd_chan h) p true true]))
                | _ => Some (add_handle (hd_chan h) p (hd_erased h) k w)
                end
            | None => None
            end
        | None => None
        end
      else None
  | None => None
  end.

(** ptr.rs:100-107 [Drop for Ptr], then the [Arc] is released. *)
Definition drop_handle (i : nat) (w : world) : world :=
  match handles w !! i with
  | Some h =>
      if hd_live h then
        match chans w !! hd_chan h with
        | Some k =>
            W (<[hd_chan h := CH (ch_loc k) (ch_arcs k - 1) (ch_tx k - counts (hd_policy h))]> (chans w))
              (<[i := HD (hd_chan h) (hd_policy h) (hd_erased h) false]> (handles w))
        | None => w
        end
      else w
  | None => w
  end.

(** A memory location is free if no live allocation is there. *)
Definition free_loc (l : nat) (w : world) : bool :=
  forallb (λ k, (ch_arcs k =? 0) || negb (ch_loc k =? l)) (chans w).

(** mailbox.rs:18-43, chan.rs:31-38 [Mailbox::bounded]/[unbounded]: a channel is allocated
    at a free location [l] (locations of freed channels may be used again); a strong address
    and a mailbox are made. *)
Definition new_channel (l : nat) (w : world) : world :=
  if free_loc l w then
    W (chans w ++ [CH l 2 1])
      (handles w ++ [HD (length (chans w)) PStrong false true; HD (length (chans w)) PRx false true])
  else w.

Inductive wop := WNew (l : nat) | WConv (v : conv) (i : nat) | WDrop (i : nat).
Definition wstep (w : world) (o : wop) : world :=
  match o with
  | WNew l => new_channel l w
  | WConv v i => match convert v i w with Some w' => w' | None => w end
  | WDrop i => drop_handle i w
  end.
Definition wrun (w : world) (ops : list wop) : world := fold_left wstep ops w.

(** A chain of conversions: each is applied to the result of the one before. *)
Fixpoint chain (vs : list conv) (i : nat) (w : world) : option (world * nat) :=
  match vs with
  | [] => Some (w, i)
  | v :: vs => match convert v i w with Some w' => chain vs (length (handles w)) w' | None => None end
  end.
