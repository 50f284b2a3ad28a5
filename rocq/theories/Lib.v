(** Reachable states, sums over lists, and tactics shared by the invariant proofs. *)
From stdpp Require Import base numbers list list_numbers.
From Coq Require Import Lia.
From Verif Require Import Prio Heap State Model Frame.

(** ** Sums *)
Notation Σ := sum_list_with.

Lemma sum_insert {A} (g : A → nat) l i x y :
  l !! i = Some x → Σ g (<[i:=y]> l) + g x = Σ g l + g y.
Proof.
  revert i; induction l as [|a l IH]; intros [|i] H; simpl in *; try done.
  - injection H as ->. lia.
  - specialize (IH _ H). lia.
Qed.

Lemma sum_lookup {A} (g : A → nat) l i x : l !! i = Some x → g x ≤ Σ g l.
Proof.
  revert i; induction l as [|a l IH]; intros [|i] H; simpl in *; try done.
  - injection H as ->. lia.
  - specialize (IH _ H). lia.
Qed.

Lemma sum_elem {A} (g : A → nat) l x : x ∈ l → g x ≤ Σ g l.
Proof. intros [i Hi]%elem_of_list_lookup. by eapply sum_lookup. Qed.

Lemma sum_snoc {A} (g : A → nat) l x : Σ g (l ++ [x]) = Σ g l + g x.
Proof. rewrite sum_list_with_app. simpl. lia. Qed.

Lemma sum_perm {A} (g : A → nat) l k : l ≡ₚ k → Σ g l = Σ g k.
Proof. induction 1; simpl; lia. Qed.

Lemma sum_ext {A} (g h : A → nat) l : (∀ x, x ∈ l → g x = h x) → Σ g l = Σ h l.
Proof.
  induction l as [|a l IH]; intros H; simpl; [done|].
  rewrite H by (by left). rewrite IH; [done|]. intros x Hx. apply H. by right.
Qed.

Lemma sum_zero {A} (g : A → nat) l : (∀ x, x ∈ l → g x = 0) → Σ g l = 0.
Proof.
  induction l as [|a l IH]; intros H; simpl; [done|].
  rewrite H by (by left). rewrite IH; [done|]. intros x Hx. apply H. by right.
Qed.

Lemma sum_pos {A} (g : A → nat) l : 0 < Σ g l → ∃ x, x ∈ l ∧ 0 < g x.
Proof.
  induction l as [|a l IH]; simpl; intros H; [lia|].
  destruct (decide (0 < g a)) as [Ha|Ha].
  - exists a. split; [by left|done].
  - destruct IH as (x & Hx & Hg); [lia|]. exists x. split; [by right|done].
Qed.

Lemma sum_map {A B} (g : B → nat) (f : A → B) l : Σ g (map f l) = Σ (λ x, g (f x)) l.
Proof. induction l; simpl; congruence. Qed.

Lemma sum_add {A} (g h : A → nat) l : Σ (λ x, g x + h x) l = Σ g l + Σ h l.
Proof. induction l; simpl; lia. Qed.

(** Token count over the calls in progress. *)
Definition msum (g : micro → nat) (s : state) : nat := Σ (Σ g) (thr s).

Lemma msum_step g s t u rest new (s1 : state) :
  thr s !! t = Some (u :: rest) → thr s1 = thr s →
  msum g (set_thr (<[t := new ++ rest]> (thr s1)) s1) + g u = msum g s + Σ g new.
Proof.
  intros Ht H1. unfold msum. simpl. rewrite H1.
  pose proof (sum_insert (Σ g) _ _ _ (new ++ rest) Ht) as H.
  rewrite sum_list_with_app in H. simpl in H. lia.
Qed.

Lemma msum_head g s t u rest : thr s !! t = Some (u :: rest) → g u ≤ msum g s.
Proof. intros Ht. pose proof (sum_lookup (Σ g) _ _ _ Ht). unfold msum. simpl in *. lia. Qed.

Lemma msum_call g p s : msum g (call p s) = msum g s + Σ g p.
Proof. unfold msum, call. simpl. rewrite sum_snoc. done. Qed.

Lemma msum_eq g s s' : thr s' = thr s → msum g s' = msum g s.
Proof. unfold msum. by intros ->. Qed.

(** ** Reachable states *)

(** [reach] contains the reachable states, and also the intermediate ones in which
    the channel is about to be freed; invariants are proved for all of them. *)
Inductive reach : state → Prop :=
| reach_init c : reach (init c)
| reach_api s o : reach s → reach (api o s)
| reach_step s t : reach s → reach (do_step t s)
| reach_free s : reach s → chan_owned s = false → reach (free_chan s).

Lemma reach_collect s : reach s → reach (collect s).
Proof. intros H. unfold collect. destruct (chan_owned s) eqn:E; [done|by apply reach_free]. Qed.

Lemma reach_one s o : reach s → reach (step s o).
Proof. intros H. apply reach_collect. destruct o; try (by apply reach_api). by apply reach_step. Qed.

Lemma reach_run s l : reach s → reach (run s l).
Proof. revert s; induction l as [|o l IH]; intros s H; simpl; [done|]. apply IH. by apply reach_one. Qed.

Lemma run_app s l k : run s (l ++ k) = run (run s l) k.
Proof. apply fold_left_app. Qed.

Lemma run_snoc s l o : run s (l ++ [o]) = step (run s l) o.
Proof. apply fold_left_app. Qed.


(** ** Tactics *)

(** Destruct a scrutinee; a pair [(state, result)] is kept as [fst]/[snd] of the
    call so that the frame lemmas apply. *)
Ltac dpair x :=
  let s1 := fresh "s1" in let r1 := fresh "r1" in let E := fresh "Ep" in
  destruct x as [s1 r1] eqn:E;
  let E1 := fresh "E1" in
  pose proof (f_equal fst E) as E1; cbn [fst] in E1; subst s1;
  let E2 := fresh "E2" in
  pose proof (f_equal snd E) as E2; cbn [snd] in E2; clear E.

Ltac dmatch H :=
  match type of H with
  | context [match ?x with _ => _ end] =>
      lazymatch x with
      | context [match _ with _ => _ end] => fail
      | _ =>
        lazymatch type of x with
        | (state * _)%type => dpair x
        | prod _ _ => let E := fresh "Em" in destruct x as [? ?] eqn:E
        | _ => let E := fresh "Em" in destruct x eqn:E
        end
      end
  end.

Ltac frame f :=
  repeat progress (cbn [f] in *; autorewrite with f in *).

(** No atomic action changes the other calls in progress. *)
Lemma exec_thr u s : thr (fst (exec u s)) = thr s.
Proof.
  destruct (exec u s) as [s1 new] eqn:E. cbn [fst].
  destruct u; cbn [exec] in E;
    unfold exec_try_recv, exec_poll_one, exec_send_lock, exec_send_cell1, exec_send_cellA, exec_send_ok, exec_cancel, panic_recv, panic_send in E;
    repeat (dmatch E; cbv zeta in E);
    injection E as <- <-; autorewrite with fr_thr; cbn; autorewrite with fr_thr; try done.
Qed.

(** Induction over reachable states. *)
Lemma reach_inv (I : state → Prop) :
  (∀ c, I (init c)) →
  (∀ s o, reach s → I s → I (api o s)) →
  (∀ s t u rest s1 new, reach s → I s → thr s !! t = Some (u :: rest) → exec u s = (s1, new) →
     thr s1 = thr s → I (set_thr (<[t := new ++ rest]> (thr s1)) s1)) →
  (∀ s, reach s → I s → chan_owned s = false → I (free_chan s)) →
  ∀ s, reach s → I s.
Proof.
  intros H0 Ha Hs Hf s Hr. induction Hr as [c|s o Hr IH|s t Hr IH|s Hr IH Ho]; auto.
  unfold do_step. destruct (thr s !! t) as [[|u rest]|] eqn:Ht; try done.
  destruct (exec u s) as [s1 new] eqn:E. eapply Hs; eauto.
  pose proof (exec_thr u s) as H. by rewrite E in H.
Qed.

(** Case analysis of one atomic action. *)
Ltac exec_cases u E :=
  destruct u; cbn [exec] in E;
  unfold exec_try_recv, exec_poll_one, exec_send_lock, exec_send_cell1, exec_send_cellA, exec_send_ok, exec_cancel, panic_recv, panic_send in E;
  repeat (dmatch E; cbv zeta in E);
  injection E as <- <-.

(** Case analysis of one API call; the calls that do nothing are closed by [HI]. *)
Ltac dgoal :=
  match goal with
  | |- context [match ?x with _ => _ end] =>
      lazymatch x with
      | context [match _ with _ => _ end] => fail
      | _ =>
        lazymatch type of x with
        | (state * _)%type => dpair x
        | _ => let E := fresh "Em" in destruct x eqn:E
        end
      end
  end.

Ltac case_eqb :=
  repeat match goal with
  | |- context [?a =? ?b] => destruct (Nat.eqb_spec a b)
  | H : context [?a =? ?b] |- _ => destruct (Nat.eqb_spec a b)
  end.

(** ** Pointwise measures *)
Definition at_ {A} (g : A → nat) (l : list A) (i : nat) : nat :=
  match l !! i with Some x => g x | None => 0 end.

Lemma at_some {A} (g : A → nat) l i x : l !! i = Some x → at_ g l i = g x.
Proof. unfold at_. by intros ->. Qed.

Lemma at_none {A} (g : A → nat) l i : l !! i = None → at_ g l i = 0.
Proof. unfold at_. by intros ->. Qed.

Lemma at_pos {A} (g : A → nat) l i : 0 < at_ g l i → ∃ x, l !! i = Some x ∧ 0 < g x.
Proof. unfold at_. case_match; [eauto|lia]. Qed.

Lemma at_insert {A} (g : A → nat) l j x y i :
  l !! j = Some x → at_ g (<[j:=y]> l) i = if j =? i then g y else at_ g l i.
Proof.
  intros H. unfold at_. destruct (Nat.eqb_spec j i) as [->|].
  - rewrite list_lookup_insert; [done|by eapply lookup_lt_Some].
  - by rewrite list_lookup_insert_ne.
Qed.

Lemma at_snoc {A} (g : A → nat) l x i :
  at_ g (l ++ [x]) i = if length l =? i then g x else at_ g l i.
Proof.
  unfold at_. destruct (Nat.eqb_spec (length l) i) as [<-|].
  - rewrite lookup_app_r, Nat.sub_diag by lia. done.
  - destruct (decide (i < length l)).
    + by rewrite lookup_app_l.
    + rewrite lookup_app_r by lia. rewrite (proj2 (lookup_ge_None l i)) by lia.
      destruct (i - length l) eqn:E; [lia|]. done.
Qed.

Lemma at_ge {A} (g : A → nat) l i : length l ≤ i → at_ g l i = 0.
Proof. intros H. apply at_none. by apply lookup_ge_None. Qed.

Lemma at_alter {A} (g : A → nat) l j h i :
  at_ g (alter h j l) i = if j =? i then at_ (λ x, g (h x)) l i else at_ g l i.
Proof.
  unfold at_. destruct (Nat.eqb_spec j i) as [->|].
  - rewrite list_lookup_alter. by destruct (l !! i).
  - by rewrite list_lookup_alter_ne.
Qed.

Lemma sum_alter {A} (g : A → nat) l j h :
  Σ g (alter h j l) + at_ g l j = Σ g l + at_ (λ x, g (h x)) l j.
Proof.
  unfold at_. destruct (l !! j) as [x|] eqn:Hj.
  - rewrite list_alter_insert; [|done] || idtac.
    assert (alter h j l = <[j := h x]> l) as ->.
    { apply list_eq. intros i. destruct (decide (i = j)) as [->|].
      - rewrite list_lookup_alter, Hj, list_lookup_insert; [done|by eapply lookup_lt_Some].
      - by rewrite list_lookup_alter_ne, list_lookup_insert_ne. }
    by apply sum_insert.
  - assert (alter h j l = l) as ->; [|lia].
    apply list_eq. intros i. destruct (decide (i = j)) as [->|].
    + by rewrite list_lookup_alter, Hj.
    + by rewrite list_lookup_alter_ne.
Qed.

Lemma at_le_sum {A} (g : A → nat) l i : at_ g l i ≤ Σ g l.
Proof. unfold at_. destruct (l !! i) eqn:E; [by eapply sum_lookup|lia]. Qed.

Lemma sfs_set_sst f x s :
  sfs (set_sst f x s) = alter (λ sf, SF x (sf_mode sf) (sf_live sf) (sf_wk sf)) f (sfs s).
Proof.
  unfold set_sst. destruct (sfs s !! f) as [h|] eqn:E.
  - cbn. apply list_eq. intros i. destruct (decide (i = f)) as [->|].
    + rewrite list_lookup_alter, E, list_lookup_insert; [done|by eapply lookup_lt_Some].
    + by rewrite list_lookup_alter_ne, list_lookup_insert_ne.
  - apply list_eq. intros i. destruct (decide (i = f)) as [->|].
    + by rewrite list_lookup_alter, E.
    + by rewrite list_lookup_alter_ne.
Qed.

Lemma hols_set_hst f x s :
  hols (set_hst f x s) = alter (λ h, HO (h_bq h) x (h_run h) (h_wk h)) f (hols s).
Proof.
  unfold set_hst. destruct (hols s !! f) as [h|] eqn:E.
  - cbn. apply list_eq. intros i. destruct (decide (i = f)) as [->|].
    + rewrite list_lookup_alter, E, list_lookup_insert; [done|by eapply lookup_lt_Some].
    + by rewrite list_lookup_alter_ne, list_lookup_insert_ne.
  - apply list_eq. intros i. destruct (decide (i = f)) as [->|].
    + by rewrite list_lookup_alter, E.
    + by rewrite list_lookup_alter_ne.
Qed.

Lemma sfs_send_out f x o s :
  sfs (send_out f x o s) = alter (λ sf, SF x (sf_mode sf) (sf_live sf) (sf_wk sf)) f (sfs s).
Proof. unfold send_out. autorewrite with fr_sfs. apply sfs_set_sst. Qed.

Lemma hols_deliver r a s :
  hols (deliver r a s) = alter (λ h, HO (h_bq h) (HMsg a) (h_run h) (h_wk h)) r (hols s).
Proof. unfold deliver. autorewrite with fr_hols. apply hols_set_hst. Qed.

#[export] Hint Rewrite sfs_set_sst sfs_send_out : fr_sfs.
#[export] Hint Rewrite hols_set_hst hols_deliver : fr_hols.

(** Measures in normal form: known positions are looked up, updates are expanded. *)
Ltac sums :=
  repeat match goal with
  | |- context [at_ ?g (<[?j := ?y]> ?l) ?i] =>
      first [ erewrite (at_insert g l j _ y i) by eassumption ]
  | |- context [at_ ?g (alter ?h ?j ?l) ?i] => rewrite (at_alter g l j h i)
  | |- context [at_ ?g (?l ++ [?x]) ?i] => rewrite (at_snoc g l x i)
  | |- context [Σ ?g (<[?j := ?y]> ?l)] =>
      let H := fresh "HS" in
      epose proof (sum_insert g l j _ y ltac:(eassumption)) as H; revert H;
      generalize (Σ g (<[j := y]> l)); intros ? H
  | |- context [Σ ?g (alter ?h ?j ?l)] =>
      let H := fresh "HS" in
      pose proof (sum_alter g l j h) as H; revert H;
      generalize (Σ g (alter h j l)); intros ? H
  | |- context [Σ ?g (?l ++ ?k)] => rewrite (sum_list_with_app g l k)
  end.

Lemma at_zero {A} (l : list A) i : at_ (λ _, 0) l i = 0.
Proof. unfold at_. by case_match. Qed.

(** Replace [at_ g l i] by [g x] when the element is known. *)
Ltac ats :=
  repeat match goal with
  | |- context [at_ (λ _, 0) ?l ?i] => rewrite (at_zero l i)
  | H2 : context [at_ (λ _, 0) ?l ?i] |- _ => rewrite (at_zero l i) in H2
  | H : ?l !! ?i = Some ?x |- context [at_ ?g ?l ?i] => rewrite (at_some g l i x H)
  | H : ?l !! ?i = Some ?x, H2 : context [at_ ?g ?l ?i] |- _ => rewrite (at_some g l i x H) in H2
  | H : ?l !! ?i = None |- context [at_ ?g ?l ?i] => rewrite (at_none g l i H)
  | H : ?l !! ?i = None, H2 : context [at_ ?g ?l ?i] |- _ => rewrite (at_none g l i H) in H2
  end.

(** Projections of field updates. *)
Ltac prj :=
  cbn [cap txc rxc uq ws1 wsA wrx bqs tail cells1 cellsA ones bqueues reps lsts addrs hols sfs rcvs
       jhs thr nbm nwk wakes log
       set_cap set_txc set_rxc set_uq set_ws1 set_wsA set_wrx set_bqs set_tail set_cells1 set_cellsA
       set_ones set_bqueues set_reps set_lsts set_addrs set_hols set_sfs set_rcvs set_jhs set_thr
       set_nbm set_nwk set_wakes set_log emit call put_sf].

Lemma at_bound {A} (g : A → nat) l i n : (∀ x, g x ≤ n) → at_ g l i ≤ n.
Proof. intros H. unfold at_. case_match; [apply H|lia]. Qed.

(** Token facts for the action that is executed: [I] is an invariant indexed by the
    object the action mentions, [g] its token measure. *)
Ltac tok I g :=
  try match goal with
  | H : thr ?s !! ?t = Some (?u :: ?rest) |- _ =>
      match eval cbn in (λ f, g f u) with
      | context [?f0 =? _] =>
          let If0 := fresh "If0" in let HH0 := fresh "HH0" in
          pose proof (I f0) as If0; pose proof (msum_head (g f0) s t u rest H) as HH0;
          cbn in HH0; rewrite Nat.eqb_refl in HH0
      end
  end.

Ltac fin := cbn -[Nat.eqb] in *; repeat case_eqb; subst; ats; cbn in *; simplify_eq; try lia.

Lemma sum_notify (g : micro → nat) l : (∀ o, g (UTxNotify o) = 0) → Σ g (map UTxNotify l) = 0.
Proof. intros H. induction l; simpl; rewrite ?H; done. Qed.

(** Split the programs that destroy futures. *)
Ltac split_drops :=
  repeat match goal with
  | H : sf_drop _ = Some _ |- _ =>
      unfold sf_drop in H; cbn [sf_st sf_mode] in H
  | H : hol_drop ?h = Some _ |- _ =>
      destruct h; unfold hol_drop in H; cbn [h_st h_bq] in H
  | H : match ?x with _ => _ end = Some _ |- _ =>
      lazymatch x with context [match _ with _ => _ end] => fail | _ => destruct x eqn:? end
  | H : Some _ = Some _ |- _ => injection H as <-
  | H : None = Some _ |- _ => discriminate H
  end.

Ltac split_lists :=
  unfold rx_drop, payload_drop, amsg_drop, tx_drop in *;
  repeat match goal with
  | |- context [Σ _ (match ?x with _ => _ end)] => destruct x
  | H : context [Σ _ (match ?x with _ => _ end)] |- _ => destruct x
  end.

(** One API call; [fr] rewrites with the frame lemmas of the fields involved. *)
Ltac do_api o fr :=
  destruct o; cbn [api]; repeat (dgoal; try done); cbv zeta;
  split_drops;
  unfold msum in *; repeat (progress (prj; fr; autorewrite with fr_thr));
  unfold add_addr, tx_drop, payload_drop, amsg_drop, rx_drop in *;
  repeat (match goal with
          | |- context [match ?x with _ => _ end] =>
            lazymatch x with context [match _ with _ => _ end] => fail
            | context [_ =? _] => fail | _ => destruct x eqn:? end
          end; prj); prj; cbn [app]; sums; fin.

(** One atomic action: [HM] is the equation of [msum_step]. *)
Ltac do_exec u E HM fr :=
  exec_cases u E; repeat (progress (prj; fr));
  rewrite ?sum_list_with_app in HM; try (rewrite sum_notify in HM by done);
  sums; unfold rx_drop, payload_drop, amsg_drop, tx_drop in *;
  repeat match type of HM with context [Σ _ (match ?x with _ => _ end)] => destruct x end;
  cbn -[Nat.eqb Nat.sub] in HM.

(** Same for a fact [Hb] about the object of the executed action. *)
Ltac tokb Hb g :=
  try match goal with
  | H : thr ?s !! ?t = Some (?u :: ?rest) |- _ =>
      match eval cbn in (λ f, g f u) with
      | context [?f0 =? _] =>
          let If0 := fresh "Hb0" in
          pose proof (Hb f0 ltac:(cbn; rewrite ?Nat.eqb_refl; reflexivity)) as If0
      end
  end.
