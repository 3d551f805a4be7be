(** Contract of the priority queues used by the source: [min_max_heap::MinMaxHeap]
    and the binary heap inside itertools' [kmerge_by]. A heap is the list of its
    elements; which of several equally great (small) elements is selected is
    unspecified, so it is decided by a tie-break oracle. The oracle is given the
    complete history of the heap, so that any deterministic implementation is an
    instance of it. *)
From Verif Require Import Prelude.

Inductive hop (A : Type) := HPush (a : A) | HRemove (i : nat) | HReplace (i : nat) (a : A).
Global Arguments HPush {A}. Global Arguments HRemove {A}. Global Arguments HReplace {A}.

Record heap (A : Type) := Heap { hp_items : list A; hp_log : list (hop A) }.
Global Arguments Heap {A}. Global Arguments hp_items {A}. Global Arguments hp_log {A}.

Definition tiebreak := forall A : Type, list (hop A) -> nat.

(** [forallb], stopping at the first element that fails also when computed. *)
Fixpoint all_in {A} (f : A -> bool) (l : list A) : bool :=
  match l with
  | [] => true
  | a :: l' => if f a then all_in f l' else false
  end.

Section heap.
  Context {A : Type} (cmp : A -> A -> comparison).

  Definition not_gt (a b : A) : bool := match cmp a b with Gt => false | _ => true end.

  (** Positions of the elements that no element exceeds / is below. *)
  Definition max_idxs (l : list A) : list nat :=
    List.filter (fun i => match l !! i with
                     | Some a => all_in (fun b => not_gt b a) l
                     | None => false end) (seq 0 (length l)).
  Definition min_idxs (l : list A) : list nat :=
    List.filter (fun i => match l !! i with
                     | Some a => all_in (fun b => not_gt a b) l
                     | None => false end) (seq 0 (length l)).

  Definition pick (tb : tiebreak) (log : list (hop A)) (cands : list nat) : option nat :=
    cands !! (tb A log mod length cands)%nat.

  Definition hp_empty : heap A := Heap [] [].
  Definition hp_len (h : heap A) : N := N.of_nat (length (hp_items h)).

  Definition hp_push (h : heap A) (a : A) : heap A :=
    Heap (hp_items h ++ [a]) (HPush a :: hp_log h).

  Definition hp_max_idx (tb : tiebreak) (h : heap A) : option nat :=
    pick tb (hp_log h) (max_idxs (hp_items h)).
  Definition hp_min_idx (tb : tiebreak) (h : heap A) : option nat :=
    pick tb (hp_log h) (min_idxs (hp_items h)).

  Definition hp_peek_max (tb : tiebreak) (h : heap A) : option A :=
    match hp_max_idx tb h with Some i => hp_items h !! i | None => None end.
  Definition hp_peek_min (tb : tiebreak) (h : heap A) : option A :=
    match hp_min_idx tb h with Some i => hp_items h !! i | None => None end.

  Definition hp_remove (h : heap A) (i : nat) : heap A :=
    Heap (delete i (hp_items h)) (HRemove i :: hp_log h).
  Definition hp_replace (h : heap A) (i : nat) (a : A) : heap A :=
    Heap (<[i := a]> (hp_items h)) (HReplace i a :: hp_log h).

  (** [pop_max] *)
  Definition hp_pop_max (tb : tiebreak) (h : heap A) : option (A * heap A) :=
    match hp_max_idx tb h with
    | Some i => match hp_items h !! i with
                | Some a => Some (a, hp_remove h i)
                | None => None end
    | None => None
    end.

  (** [replace_min] *)
  Definition hp_replace_min (tb : tiebreak) (h : heap A) (a : A) : heap A :=
    match hp_min_idx tb h with
    | Some i => hp_replace h i a
    | None => hp_push h a
    end.

  (** [into_vec_desc]: repeated [pop_max]. *)
  Fixpoint hp_drain_desc (tb : tiebreak) (fuel : nat) (h : heap A) : list A :=
    match fuel with
    | O => []
    | S f => match hp_pop_max tb h with
             | Some (a, h') => a :: hp_drain_desc tb f h'
             | None => []
             end
    end.
  Definition hp_into_desc (tb : tiebreak) (h : heap A) : list A :=
    hp_drain_desc tb (length (hp_items h)) h.
End heap.
