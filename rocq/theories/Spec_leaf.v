(** Specification vocabulary for the leaves of the first level of the tree. *)
From Verif Require Import Prelude F64 Heap Common Store Query Coalesce Stackable Spec_coalesce Spec_stack Spec_tree
  Spec_quota Spec_complete Props_coalesce.
From Coq Require Import Sorting.Sorted.
Local Open Scope N_scope.

(** The records that are looked at for a key of such a leaf. *)
Definition leaf_matches (p : profile) (mtb : merge_tb) (tb : tiebreak) (o : match_opts)
    (pm : subquery) (k : match_key_id) (ms : list match_entry) : Prop :=
  exists ko, k ∈ sq_keys pm /\ key_opts p o pm k ko /\
    streaming_get_matching p mtb tb (sq_store pm) (mki_key k) ko 80 = Ok ms.
(** The result for one entry of a leaf. *)
Definition lone (pm : subquery) (e : coalesce_entry) : coalesce_context :=
  CoalesceContext (sq_mask pm) (e_relev e) [e].
(** [g] is the record number [j], less than 80 others come before it, and none of
    them, nor [g], is off by more than a quarter in relevance. A record of feature 0 that
    scores nothing counts for nothing. *)
Definition within_reach (pm : subquery) (ms : list match_entry) (j : nat) (g : match_entry) : Prop :=
  ms !! j = Some g /\ N.of_nat j < 80 /\ close_relevances pm (take (S j) ms) /\
  (ge_id (me_entry g) <> 0 \/ fltb f_zero (me_scoredist g) = true).
(** No NaN, and relevances in descending order. *)
Definition in_order (pm : subquery) (ms : list match_entry) : Prop :=
  (forall g, g ∈ ms -> f_is_nan (weighted pm g) = false /\ f_is_nan (me_scoredist g) = false) /\
  StronglySorted (fun a b => ord_cmp (weighted pm b) (weighted pm a) <> Gt) ms.
Definition worse (pm : subquery) (g g' : match_entry) : Prop :=
  ord_cmp (weighted pm g) (weighted pm g') <> Gt /\ ord_cmp (me_scoredist g) (me_scoredist g') = Lt.
(** [g'] represents the feature of the record number [j], [g]: it is not worse than what
    came up to there. *)
Definition represents (pm : subquery) (ms : list match_entry) (j : nat) (g g' : match_entry) : Prop :=
  g' ∈ ms /\ ge_id (me_entry g') = ge_id (me_entry g) /\
  (ge_id (me_entry g) <> 0 -> in_order pm (take (S j) ms) ->
   forall g'', g'' ∈ take (S j) ms -> ge_id (me_entry g'') = ge_id (me_entry g) -> ~ worse pm g' g'').
(** Forty other features of the same key are listed before this one. *)
Definition features_before (pm : subquery) (k : match_key_id) (ms : list match_entry) (e : coalesce_entry) : Prop :=
  exists D, NoDup (map e_id D) /\ length D = 40%nat /\ forall e', e' ∈ D ->
    e_id e' <> e_id e /\ listed_before (lone pm e') (lone pm e) /\ exists g', g' ∈ ms /\ entry_of pm k g' e'.
(** The shortcut for autocomplete leaves: the weight of the subquery is at most three
    quarters of a relevance that was already found. *)
Definition leaf_passed (found : list coalesce_context) (pm : subquery) (k : match_key_id) : Prop :=
  one_word pm k = true /\ high_zoom pm = true /\
  exists b, (b = f_zero \/ exists d, d ∈ found /\ ord_cmp b (cc_relev d) <> Gt) /\
    fleb (sq_weight pm) (fmul (f_lit 75 100) b) = true.
