(** Concrete executions used as examples of part B. *)
From stdpp Require Import base numbers list.
From Coq Require Import Lia.
From Verif Require Import Prio Heap State Model Lib Spec Witness.

(** Capacity 1: message 0 is queued, the send of message 1 is blocked and then cancelled; a slot becomes free. *)
Definition w_cancel : state := drive (init (Some 1)) (send 0 0 ++ send 0 1 ++ [ADropSend 1]).
Definition w_cancel2 : state := drive w_cancel (recv 0 1 ++ recv 0 2).
(** Capacity 1: message 0 is queued, the send of message 1 is blocked; the mailbox is dropped; both are polled. *)
Definition w_fail0 : state := drive (init (Some 1)) (send 0 0 ++ send 0 1 ++ [ADropHol 0]).
Definition w_fail : state := drive w_fail0 [APollSend 1; APollSend 0].
(** Message 0 was handled with result 7, message 1 was sent detached and handled with result 8, message 2 was
    received and thrown away, message 3 is running. *)
Definition w_reply : state :=
  drive (init None) (send 0 0 ++ recv 0 1 ++ handle 1 7 ++ [ASend 0; ADetach 1; APollSend 1] ++ recv 0 2 ++ handle 2 8 ++
    send 0 2 ++ recv 0 3 ++ [ADropHol 3] ++ send 0 3 ++ recv 0 4 ++ [ADispatch 4; ARun 4]).
Definition w_reply2 : state := drive w_reply [APollSend 0; APollRcv 0; APollSend 2; APollSend 3].
(** Message 0 is in flight to a waiting receiver, message 1 queued; a broadcast. *)
Definition w_flight : state := drive (init None) (recv 0 1 ++ send 0 0 ++ send 0 1 ++ [ABroadcast 0; APollSend 2]).
(** Capacity 1: a queued message, a blocked detached send, a blocked broadcast; then everything else goes away. *)
Definition w_gone : state :=
  drive (init (Some 1)) (send 0 0 ++ [ASend 0; ADetach 1; APollSend 1; ABroadcast 0; APollSend 2; ABroadcast 0; APollSend 3; ADropAddr 0; ADropHol 0]).

Lemma reach_w_cancel : reachable w_cancel. Proof. exact (drive_reachable _ _). Qed.
Lemma reach_w_fail0 : reachable w_fail0. Proof. exact (drive_reachable _ _). Qed.
Lemma reach_w_fail : reachable w_fail. Proof. exact (drive_drive_reachable _ _ _). Qed.
Lemma reach_w_reply : reachable w_reply. Proof. exact (drive_reachable _ _). Qed.
Lemma reach_w_reply2 : reachable w_reply2. Proof. exact (drive_drive_reachable _ _ _). Qed.
Lemma reach_w_flight : reachable w_flight. Proof. exact (drive_reachable _ _). Qed.
Lemma reach_w_gone : reachable w_gone. Proof. exact (drive_reachable _ _). Qed.
Lemma later_w_cancel : later w_cancel w_cancel2. Proof. exact (drive_later _ _). Qed.
Lemma later_w_reply : later w_reply w_reply2. Proof. exact (drive_later _ _). Qed.
Lemma later_w_fail : later w_fail0 w_fail. Proof. exact (drive_later _ _). Qed.
Lemma later_refl s : later s s. Proof. by exists []. Qed.

Definition happenedb (p : ev → bool) (s : state) : bool := existsb p (log s).
Definition abandonedb (s : state) : bool :=
  quietb s && forallb (λ x, negb (ad_live x)) (addrs s) && forallb (λ h, match h_st h with HGone => true | _ => false end) (hols s)
  && forallb (λ x, negb (sf_live x) || match sf_st x with SNew _ _ => false | _ => true end) (sfs s).
Lemma abandonedb_spec s : abandonedb s = true → abandoned s.
Proof.
  unfold abandonedb. rewrite !andb_true_iff, !forallb_forall. intros [[[H1 H2] H3] H4]. split_and!.
  - by apply quietb_spec.
  - intros a x Hx%elem_of_list_lookup_2%elem_of_list_In%H2. by destruct (ad_live x).
  - intros r h Hx%elem_of_list_lookup_2%elem_of_list_In%H3. by destruct (h_st h).
  - intros f x p k Hx%elem_of_list_lookup_2%elem_of_list_In%H4 Hl Hs. by rewrite Hl, Hs in Hx.
Qed.
