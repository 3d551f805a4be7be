(** Specification vocabulary: requests that stay below the limits of tree_coalesce. *)
From Verif Require Import Prelude F64 Heap Common Store Query Coalesce Stackable Spec_coalesce Spec_stack Spec_tree
  Spec_quota Spec_complete Spec_leaf.
Local Open Scope N_scope.

(** At most 40 of the elements that satisfy [P]. *)
Definition at_most_40 {A} (P : A -> Prop) : Prop :=
  forall D, NoDup D -> (forall x, x ∈ D -> P x) -> (length D <= 40)%nat.
(** The keys fit into the quotas and the shortcut for autocomplete leaves never applies;
    for each key there are at most 40 stacks of any list of subqueries that end with the
    key, and at most 40 features if its subquery stands alone. *)
Definition roomy (p : profile) (mtb : merge_tb) (tb : tiebreak) (o : match_opts) (pms : list subquery) : Prop :=
  (forall c, tree_uses c (stackable pms) <= quota_limit c) /\
  (forall pm k, pm ∈ pms -> k ∈ sq_keys pm -> one_word pm k && high_zoom pm = false) /\
  (forall chain id, legal pms (rev chain) ->
    at_most_40 (fun es => nested_stack p mtb tb o chain es /\ ce_phrasematch_id <$> head es = Some id)) /\
  (forall pm k ms, pm ∈ pms -> leaf_matches p mtb tb o pm k ms ->
    at_most_40 (fun id => exists g, g ∈ ms /\ ge_id (me_entry g) = id)).
