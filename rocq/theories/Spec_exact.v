(** Specification vocabulary for what tree_coalesce returns: only stacks, each once. *)
From Verif Require Import Prelude F64 Heap Common Store Query Stackable Spec_coalesce Spec_stack Spec_tree Spec_complete.
Local Open Scope N_scope.

(** The result for a match of a leaf of the first level: it is the only entry, and it
    is among the first 80 records of its key. *)
Definition leaf_result (p : profile) (mtb : merge_tb) (tb : tiebreak) (o : match_opts) (t : tree)
    (c : coalesce_context) : Prop :=
  exists i n pm k g e, i ∈ sn_children (t_root t) /\ tree_get t i = Some n /\ sn_pm n = Some pm /\
    sn_children n = [] /\ key_match p mtb tb o 80 pm k g /\ entry_of pm k g e /\
    c = CoalesceContext (sq_mask pm) (e_relev e) [e].
(** The result for a stack of any other node. *)
Definition stack_result (p : profile) (mtb : merge_tb) (tb : tiebreak) (o : match_opts) (t : tree)
    (c : coalesce_context) : Prop :=
  exists n chain es, node_stack p mtb tb o t n chain es /\ stacked n chain /\ c = stack_context chain es.

(** No key id is used by two different subqueries. *)
Definition own_ids (S : subquery -> Prop) : Prop :=
  forall pm1 pm2 k1 k2, S pm1 -> S pm2 -> k1 ∈ sq_keys pm1 -> k2 ∈ sq_keys pm2 -> mki_id k1 = mki_id k2 -> pm1 = pm2.
(** The children of a node carry different subqueries. *)
Definition siblings_apart (t : tree) : Prop :=
  forall n, n = t_root t \/ (exists i, tree_get t i = Some n) ->
  exists l, NoDup l /\ Forall2 (fun j pm => forall c, tree_get t j = Some c -> sn_pm c = Some pm) (sn_children n) l.

(** The same without the tree: a legal stack of subqueries, or a single one. *)
Definition lone_result (p : profile) (mtb : merge_tb) (tb : tiebreak) (o : match_opts) (pms : list subquery)
    (c : coalesce_context) : Prop :=
  exists pm k g e, pm ∈ pms /\ key_match p mtb tb o 80 pm k g /\ entry_of pm k g e /\
    c = CoalesceContext (sq_mask pm) (e_relev e) [e].
Definition nested_result (p : profile) (mtb : merge_tb) (tb : tiebreak) (o : match_opts) (pms : list subquery)
    (c : coalesce_context) : Prop :=
  exists chain es, nested_stack p mtb tb o chain es /\ legal pms (rev chain) /\ c = stack_context chain es.
