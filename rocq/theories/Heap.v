(** The standard library's [BinaryHeap], as used by chan.rs:26 and chan.rs:310
    ([BinaryHeap<ByPriority<_>>]).  The algorithm is std's
    (alloc::collections::binary_heap): a vector laid out as an implicit binary
    tree, [push] = append + [sift_up], [pop] = move the last element to the root +
    [sift_down_to_bottom] + [sift_up].  std writes the moves with a "hole"; a
    hole move is a swap of the hole's element with its neighbour, which is how
    it is written here.  Elements are compared by priority only
    (priority.rs:51-58, [Ord for ByPriority]). *)
From stdpp Require Import base numbers list.
From Verif Require Import Prio.

Section heap.
  Context {A : Type} (key : A → prio).

  (** priority.rs:51-58: [a <= b] on [ByPriority]. *)
  Definition leb (a b : A) : bool := prio_leb (key a) (key b).

  (** std: exchange of two positions (hole move). *)
  Definition swap (l : list A) (i j : nat) : list A :=
    match l !! i, l !! j with
    | Some x, Some y => <[i:=y]> (<[j:=x]> l)
    | _, _ => l
    end.

  (** std BinaryHeap::sift_up(0, pos): climb while strictly greater than the
      parent.  [fuel] = [pos] is always enough: the position strictly decreases. *)
  Fixpoint sift_up (fuel : nat) (l : list A) (pos : nat) : list A :=
    match fuel with
    | 0 => l
    | S f =>
        if decide (pos = 0) then l
        else
          let parent := (pos - 1) / 2 in
          match l !! pos, l !! parent with
          | Some x, Some p => if leb x p then l else sift_up f (swap l pos parent) parent
          | _, _ => l
          end
    end.

  (** std BinaryHeap::sift_down_to_bottom, loop part: take the hole down to the
      bottom along the greater child ([child += (child <= child+1) as usize]).
      [fuel] = length is always enough: the position strictly increases. *)
  Fixpoint sift_down (fuel : nat) (l : list A) (pos : nat) : list A * nat :=
    match fuel with
    | 0 => (l, pos)
    | S f =>
        let child := 2 * pos + 1 in
        let e := length l in
        if decide (child ≤ e - 2) then
          match l !! child, l !! (child + 1) with
          | Some a, Some b =>
              let c := if leb a b then child + 1 else child in
              sift_down f (swap l pos c) c
          | _, _ => (l, pos)
          end
        else if decide (child = e - 1) then (swap l pos child, child)
        else (l, pos)
    end.

  (** std BinaryHeap::push *)
  Definition heap_push (x : A) (l : list A) : list A :=
    sift_up (length l) (l ++ [x]) (length l).

  (** std BinaryHeap::pop: the last element replaces the root, is taken to the
      bottom and then sifted up. *)
  Definition heap_pop (l : list A) : option (A * list A) :=
    match l with
    | [] => None
    | root :: rest =>
        match rest with
        | [] => Some (root, [])
        | _ =>
            let data := List.last rest root :: List.removelast rest in
            let '(d, p) := sift_down (length data) data 0 in
            Some (root, sift_up p d p)
        end
    end.

  (** std BinaryHeap::peek *)
  Definition heap_peek (l : list A) : option A := head l.
End heap.
