(** Concrete runs with spans. *)
From stdpp Require Import base numbers list.
From Verif Require Import Prio Heap State Model Span SpanSpec.

(** The call number [t] performs [n] actions. *)
Definition acts (t n : nat) : list pop := replicate n (PDo None (Step t)).
(** A message sent under the span 1 of the program and a broadcast sent under no span, to two mailboxes; the handler of
    the message, run under the span 9 of its executor, sends another message from within its own span. *)
Definition l_spans : list pop :=
  [PDo None (AMbClone 0)] ++ acts 0 3 ++
  [PDo (Some (User 5)) (ASend 0); PDo (Some (User 1)) (APollSend 0)] ++ acts 1 8 ++
  [PDo None (ABroadcast 0); PDo None (APollSend 1)] ++ acts 2 8 ++
  [PDo None (ANext 0); PDo None (APollRecv 2)] ++ acts 3 3 ++ [PDo None (ADispatch 2); PDo (Some (User 9)) (ARun 2)] ++
  [PDo None (ANext 0); PDo None (APollRecv 3)] ++ acts 4 3 ++ [PDo None (ADispatch 3); PDo (Some (User 9)) (ARun 3)] ++
  [PDo None (ANext 1); PDo None (APollRecv 4)] ++ acts 5 3 ++ [PDo None (ADispatch 4); PDo None (ARun 4)] ++
  [PDo (Some (Xtra 4)) (ASend 0); PDo (Some (Xtra 4)) (APollSend 2)] ++ acts 6 8.
Definition x_spans (on : bool) : spans := p_run (p_init on (Some 8)) l_spans.
Lemma split_spans : l_spans = ([PDo None (AMbClone 0)] ++ acts 0 3 ++ [PDo (Some (User 5)) (ASend 0)]) ++ PDo (Some (User 1)) (APollSend 0) ::
  drop 6 l_spans.
Proof. reflexivity. Qed.
Lemma sent_spans on : sent_under (p_init on (Some 8)) l_spans (One 0) (Some (User 1)).
Proof.
  exists ([PDo None (AMbClone 0)] ++ acts 0 3 ++ [PDo (Some (User 5)) (ASend 0)]), (drop 6 l_spans), 0.
  eexists _, _, _. split; [exact split_spans|]. destruct on; vm_compute; by split_and!.
Qed.
