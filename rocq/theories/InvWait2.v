(** Receive futures that wait un-notified have no broadcast to receive. *)
From stdpp Require Import base numbers list list_numbers.
From Coq Require Import Lia.
From Verif Require Import Prio Heap State Model HeapProofs Frame Lib InvBusy InvCount Effects InvMsg InvOne InvOne2 InvDisc InvWait.

(** ** The broadcast queue of a receiver-side object never changes *)
Notation hbq s r := (at_ h_bq (hols s) r).

(** ** Lengths of broadcast queues *)
Definition blen (s : state) (b : nat) : nat := length (bq_get s b).
Lemma blen_at s b : blen s b = at_ (λ q, length (bq_heap q)) (bqueues s) b.
Proof. unfold blen, bq_get, at_. by destruct (bqueues s !! b). Qed.
Lemma blen_bq_put b h s k :
  blen (bq_put b h s) k ≤ if b =? k then length h else blen s k.
Proof.
  rewrite !blen_at, bqueues_bq_put, at_alter. destruct (Nat.eqb_spec b k) as [->|]; [|lia].
  unfold at_. destruct (bqueues s !! k); cbn; lia.
Qed.
Lemma pop_broadcast_blen b s k o :
  0 < Σ (isn o) (wrx (fst (pop_broadcast b s))) →
  blen (fst (pop_broadcast b s)) k ≤ blen s k.
Proof.
  unfold pop_broadcast. destruct (heap_pop _ _) as [[m h]|] eqn:E; [|done]. cbv zeta.
  assert (blen (bq_put b h s) k ≤ blen s k) as Hb.
  { pose proof (blen_bq_put b h s k) as H. apply heap_pop_length in E.
    destruct (Nat.eqb_spec b k) as [<-|]; [|done]. unfold blen in *. lia. }
  assert (∀ s', bqueues s' = bqueues (bq_put b h s) → blen s' k = blen (bq_put b h s) k) as Heq
    by (intros s' Hs; unfold blen, bq_get; by rewrite Hs).
  case_match; cbn [fst]; [rewrite Heq; [done|by prj]|].
  match goal with |- context [take_waitingA ?x] => dpair (take_waitingA x) end.
  destruct r1; cbn [fst]; [rewrite wrx_send_broadcast; simpl; lia|].
  intros _. rewrite Heq; [done|]. by repeat (progress (prj; autorewrite with fr_bqueues)).
Qed.

Definition g_pr (r o : nat) (u : micro) : nat :=
  match u with UPollOne q k => isn r q * isn o k | _ => 0 end.

Definition InvW2 (s : state) : Prop := ∀ o r,
  0 < Σ (isn o) (wrx s) → 0 < at_ (h_wait o) (hols s) r + msum (g_pr r o) s →
  blen s (hbq s r) = 0.

Lemma msum_le g h s : (∀ u, g u ≤ h u) → msum g s ≤ msum h s.
Proof.
  intros H. unfold msum. induction (thr s) as [|l L IH]; simpl; [lia|].
  assert (Σ g l ≤ Σ h l) by (induction l as [|u l IHl]; simpl; [lia|]; specialize (H u); lia). lia.
Qed.

Lemma reach_w2 s : reach s → InvW2 s.
Proof.
  revert s. apply reach_inv; unfold InvW2.
  - intros c o r. cbn. lia.
  - intros s o Hr I i r. specialize (I i r). rewrite blen_at in *.
    assert (length (hols s) ≤ r → Σ (Σ (g_pr r i)) (thr s) = 0) as HB.
    { intros Hl. pose proof (reach_busyR s Hr r) as HB. rewrite (at_ge _ _ _ Hl) in HB.
      pose proof (msum_le (g_pr r i) (g_rf r) s) as HL. unfold msum in *.
      cut (Σ (Σ (g_pr r i)) (thr s) ≤ Σ (Σ (g_rf r)) (thr s)); [lia|]. apply HL.
      intros []; cbn; unfold isn; repeat case_match; lia. }
    do_api o ltac:(autorewrite with fr_wrx fr_bqueues fr_hols).
    all: try (rewrite <-e, (at_some _ _ _ _ Em1) in I; done).
    all: intros; apply I; [done|]; unfold isn in *; rewrite ?Nat.eqb_refl in *; case_eqb; lia.
  - intros s t u rest s1 new Hr I0 Ht E Hthr o r. pose proof (I0 o r) as I. clear I0.
    pose proof (msum_step (g_pr r o) s t u rest new s1 Ht Hthr) as HM.
    pose proof (msum_head (g_pr r o) s t u rest Ht) as HH.
    revert HM. generalize (msum (g_pr r o) (set_thr (<[t:=new ++ rest]> (thr s1)) s1)). intros n HM.
    prj. clear Hthr. rewrite !blen_at in *.
    assert (∀ f, g_rf f u = 1 → at_ (h_wait o) (hols s) f = 0) as Hb.
    { intros f Hf. destruct (busyR_at _ _ _ _ _ Hr Ht Hf) as (sf & H1 & H2).
      rewrite !(at_some _ _ _ _ H1). unfold h_wait. by rewrite H2. }
    do_exec u E HM ltac:(autorewrite with fr_hols fr_wrx fr_bqueues).
    all: rewrite ?wrx_send_broadcast; try (simpl; lia).
    all: try (rewrite try_fulfill_false by done); try (simpl; lia).
    all: try match goal with |- context [try_fulfill_receiver ?m ?s] => pose proof (try_fulfill_mono m s o) end.
    all: try match goal with |- context [pop_broadcast ?m ?s] => pose proof (pop_broadcast_mono m s o) end.
    all: try (intros; apply I; lia).
    1,2: intros Hw Hp; destruct (Nat.eqb_spec b (hbq s r)) as [e|];
      [rewrite <-e, (at_some _ _ _ _ Em) in I; cbn in *; try done; apply I; lia|apply I; lia].
    all: tokb Hb g_rf.
    all: try (intros Hw; try rewrite Hb0; fin; done).
    1: { intros Hw Hp. destruct (reach_own s Hr o) as [Ho _].
      pose proof (at_le_sum (h_wait o) (hols s) r).
      assert (msum (g_pr r o) s ≤ msum (g_one o) s) as Hle.
      { apply msum_le. intros []; cbn; unfold isn; repeat case_match; lia. }
      unfold isn in HM, Hw. cbn in Hw. destruct (Nat.eqb_spec (length (ones s)) o) as [He|].
      2: { apply I; [unfold isn|]; lia. }
      rewrite at_ge in Ho by lia. destruct (Nat.eqb_spec r0 r) as [->|]; [|lia].
      rewrite (at_some _ _ _ _ Em), <-blen_at. unfold blen. destruct (bq_get s (h_bq h)); done. }
    all: try match type of Em0 with oprio_cmp None (option_map _ ?x) = Gt => by destruct x end.
    3: { intros Hw. cbn in HH. destruct (Nat.eqb_spec r0 r) as [->|]; [|fin; intros; apply I; lia].
      rewrite (at_some _ _ _ _ Em) in *; cbn in *. intros Hp. apply I; [done|]. unfold isn in *.
      rewrite Nat.eqb_refl in *. destruct (o0 =? o); lia. }
    all: intros Hw Hp; pose proof (pop_broadcast_blen (h_bq h) s (hbq s r) o Hw) as Hl; rewrite !blen_at in Hl.
    4: { destruct H; [done|]. rewrite I in Hl; lia. }
    all: destruct (Nat.eqb_spec r0 r) as [->|]; [|destruct H; [done|]; rewrite I in Hl; lia].
    all: ats; cbn in *; destruct H; [done|]; rewrite I in Hl; lia.
  - intros s Hr I E o r. rewrite free_wrx. cbn. lia.
Qed.
