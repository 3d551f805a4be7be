(** Requests on different stores that cannot be told apart by the answers to their keys. *)
From Verif Require Import Prelude F64 Heap Common Store Query Tree.
Local Open Scope N_scope.

(** Everything that is known of a store without reading it. *)
Definition same_options (s s' : store) : Prop :=
  st_zoom s = st_zoom s' /\ st_type_id s = st_type_id s' /\ st_bboxes s = st_bboxes s' /\
  st_max_score s = st_max_score s'.

(** Keys that are used in the same way, apart from the phrases and languages they ask for. *)
Definition same_use (p : profile) (k k' : match_key_id) : Prop :=
  mki_nearby k = mki_nearby k' /\ mki_id k = mki_id k' /\ mki_length k = mki_length k' /\
  key_is_range p (mki_key k) = key_is_range p (mki_key k').

(** The same subquery on another store, with keys that correspond under [K]; keys that
    correspond are answered in the same way. *)
Record twin (p : profile) (mtb : merge_tb) (tb : tiebreak) (K : match_key_id -> match_key_id -> Prop)
    (a b : subquery) : Prop := Twin {
  tw_idx : sq_idx a = sq_idx b;
  tw_non : sq_nonoverlap a = sq_nonoverlap b;
  tw_weight : sq_weight a = sq_weight b;
  tw_mask : sq_mask a = sq_mask b;
  tw_keys : Forall2 K (sq_keys a) (sq_keys b);
  tw_opts : same_options (sq_store a) (sq_store b);
  tw_use : forall k k', K k k' -> same_use p k k';
  tw_same : forall k k' o n, K k k' ->
    streaming_get_matching p mtb tb (sq_store a) (mki_key k) o n =
    streaming_get_matching p mtb tb (sq_store b) (mki_key k') o n }.

(** Keys at the same place in one subquery, and in any of the subqueries of one index.
    Subqueries of the same index, weight and mask are put together by stack_and_coalesce,
    which then reads the keys of all of them from the store of the first. *)
Definition at_once (a b : subquery) (k k' : match_key_id) : Prop :=
  exists n, sq_keys a !! n = Some k /\ sq_keys b !! n = Some k'.
Definition asked (pms pms' : list subquery) (i : N) (k k' : match_key_id) : Prop :=
  exists n a b, pms !! n = Some a /\ pms' !! n = Some b /\ sq_idx a = i /\ at_once a b k k'.

(** What a heap was told, element for element. *)
Inductive hop_rel {A} (R : A -> A -> Prop) : hop A -> hop A -> Prop :=
  | hr_push a b : R a b -> hop_rel R (HPush a) (HPush b)
  | hr_remove i : hop_rel R (HRemove i) (HRemove i)
  | hr_replace i a b : R a b -> hop_rel R (HReplace i a) (HReplace i b).
(** The queue of steps decides between equals by the comparisons that it made, not by
    looking into the steps. (MinMaxHeap only has their order.) *)
Definition by_order (tb : tiebreak) : Prop :=
  forall R : tstep -> tstep -> Prop,
  (forall a a' b b', R a a' -> R b b' -> step_cmp a b = step_cmp a' b') ->
  forall log log', Forall2 (hop_rel R) log log' -> tb tstep log = tb tstep log'.
