(** Specification vocabulary for what tree_coalesce must not miss. *)
From Verif Require Import Prelude F64 Heap Common Store Query Stackable Spec_coalesce Spec_stack Spec_tree.
Local Open Scope N_scope.

(** Cell and feature of a match. *)
Definition spot (g : match_entry) : N * N * N := (ge_x (me_entry g), ge_y (me_entry g), ge_id (me_entry g)).
(** The matches of a key that take part in stacking: of each cell and feature the first,
    among the first 100000. *)
Definition first_match (p : profile) (mtb : merge_tb) (tb : tiebreak) (o : match_opts)
    (pm : subquery) (k : match_key_id) (g : match_entry) : Prop :=
  exists ko out i, k ∈ sq_keys pm /\ key_opts p o pm k ko /\
    streaming_get_matching p mtb tb (sq_store pm) (mki_key k) ko 100000 = Ok out /\
    out !! i = Some g /\ N.of_nat i < 100000 /\
    forall j g', (j < i)%nat -> out !! j = Some g' -> spot g' <> spot g.
(** The entry for a match, with all its fields. *)
Definition entry_of (pm : subquery) (k : match_key_id) (g : match_entry) (e : coalesce_entry) : Prop :=
  to_entry pm (mki_id k) g e.
Definition stack_entry (p : profile) (mtb : merge_tb) (tb : tiebreak) (o : match_opts)
    (pm : subquery) (e : coalesce_entry) : Prop :=
  exists k g, first_match p mtb tb o pm k g /\ entry_of pm k g e.

(** One entry per level of a path of the tree, each in the cell of the one above it;
    innermost first. The last node of the path is kept. *)
Inductive node_stack (p : profile) (mtb : merge_tb) (tb : tiebreak) (o : match_opts) (t : tree) :
    node -> list subquery -> list coalesce_entry -> Prop :=
  | ns_one i n pm e :
      i ∈ sn_children (t_root t) -> tree_get t i = Some n -> sn_pm n = Some pm ->
      stack_entry p mtb tb o pm e -> node_stack p mtb tb o t n [pm] [e]
  | ns_more n' pm' e' pms es i n pm e :
      node_stack p mtb tb o t n' (pm' :: pms) (e' :: es) ->
      i ∈ sn_children n' -> tree_get t i = Some n -> sn_pm n = Some pm ->
      stack_entry p mtb tb o pm e ->
      (e_cell e).1 / 2 ^ (zoom_of pm - zoom_of pm') = (e_cell e').1 ->
      (e_cell e).2 / 2 ^ (zoom_of pm - zoom_of pm') = (e_cell e').2 ->
      node_stack p mtb tb o t n (pm :: pm' :: pms) (e :: e' :: es).

(** The context for a stack. *)
Definition stack_context (chain : list subquery) (es : list coalesce_entry) : coalesce_context :=
  CoalesceContext (all_masks (map sq_mask chain))
    (if ascending es then fsub (sum_relev es) (f_lit 1 100) else sum_relev es) es.

(** Requirements on the subqueries of a tree. *)
(** Layers are ordered by zoom. *)
Definition zooms_nested (t : tree) : Prop :=
  forall i n pm j m pm', tree_get t i = Some n -> sn_pm n = Some pm -> j ∈ sn_children n ->
    tree_get t j = Some m -> sn_pm m = Some pm' -> zoom_of pm <= zoom_of pm' /\ zoom_of pm' - zoom_of pm < 16.
(** The bounding boxes of a store cover what is found in it. *)
Definition boxes_cover (p : profile) (mtb : merge_tb) (tb : tiebreak) (o : match_opts) (t : tree) : Prop :=
  forall pm e, in_tree t pm -> stack_entry p mtb tb o pm e ->
  exists b, b ∈ st_bboxes (sq_store pm) /\
    bb_x0 b <= (e_cell e).1 <= bb_x1 b /\ bb_y0 b <= (e_cell e).2 <= bb_y1 b.
(** No quota and no shortcut applies to a key: a range of more than one phrase
    belongs to a mask of several bits, and a store of zoom 14 or more is only asked for
    what is nearby. *)
Definition unlimited (pm : subquery) (k : match_key_id) : Prop :=
  (forall s e, mk_phrase (mki_key k) = Range s e -> s <= e <= s + 1 \/ count_ones (sq_mask pm) <> 1) /\
  (14 <= zoom_of pm -> mki_nearby k = true).
Definition ids_distinct (pm : subquery) : Prop := NoDup (map mki_id (sq_keys pm)).

(** [c] was pushed out: the list is full and everything in it is listed before [c]. *)
Definition crowded_out (limit : nat) (l : list coalesce_context) (c : coalesce_context) : Prop :=
  length l = limit /\ forall d, d ∈ l -> listed_before d c.

(** All entries of a stack come from unlimited keys. *)
Definition free_stack (chain : list subquery) (es : list coalesce_entry) : Prop :=
  Forall2 (fun pm e => forall k, k ∈ sq_keys pm -> mki_id k = ce_phrasematch_id e -> unlimited pm k) chain es.
(** A leaf of the first level is treated separately. *)
Definition stacked (n : node) (chain : list subquery) : Prop := (2 <= length chain)%nat \/ sn_children n <> [].
(** Forty other stacks of the same node, and with an innermost entry of the same key,
    are listed before this one. *)
Definition key_crowded (p : profile) (mtb : merge_tb) (tb : tiebreak) (o : match_opts) (t : tree)
    (n : node) (chain : list subquery) (es : list coalesce_entry) : Prop :=
  exists D, NoDup D /\ length D = 40%nat /\ forall es', es' ∈ D ->
    node_stack p mtb tb o t n chain es' /\
    ce_phrasematch_id <$> head es' = ce_phrasematch_id <$> head es /\ es' <> es /\
    listed_before (stack_context chain es') (stack_context chain es).
(** The search was stopped early: the result is full, and there is a node, [n] itself
    if it is on the first level, that promised nothing better than what was found. *)
Definition stopped_early (t : tree) (n : node) (chain : list subquery) (out : list coalesce_context) : Prop :=
  length out = 800%nat /\ exists i m, tree_get t i = Some m /\ (length chain = 1%nat -> m = n) /\
    forall d, d ∈ out -> ord_cmp (sn_max_relev m) (cc_relev d) <> Gt.
(** More precisely. [n], at the end of [chain], is [m] or below it. *)
Definition leads_to (t : tree) (m n : node) (chain : list subquery) : Prop :=
  exists pre ext, pre <> [] /\ rev chain = pre ++ ext /\ descends (tree_get t) m ext n.
Definition below (t : tree) (m n : node) (chain : list subquery) : Prop :=
  exists pre pm ext, pre <> [] /\ rev chain = pre ++ pm :: ext /\ descends (tree_get t) m (pm :: ext) n.
Definition promises_no_more (m : node) (out : list coalesce_context) : Prop :=
  forall d, d ∈ out -> ord_cmp (sn_max_relev m) (cc_relev d) <> Gt.
(** The search was stopped before it got to [n]: a node on the way promised nothing better
    than what was found, or [n] is below one of the nodes [B] that were being looked at. *)
Definition cut_off (t : tree) (B : list node) (n : node) (chain : list subquery) (out : list coalesce_context) : Prop :=
  length out = 800%nat /\
  ((exists i m, tree_get t i = Some m /\ leads_to t m n chain /\ promises_no_more m out) \/ (exists m, m ∈ B /\ below t m n chain)).

(** The same without the tree: one entry per subquery, each in the cell of the next. *)
Inductive nested_stack (p : profile) (mtb : merge_tb) (tb : tiebreak) (o : match_opts) :
    list subquery -> list coalesce_entry -> Prop :=
  | nst_one pm e : stack_entry p mtb tb o pm e -> nested_stack p mtb tb o [pm] [e]
  | nst_more pm e pm' e' pms es :
      nested_stack p mtb tb o (pm' :: pms) (e' :: es) -> stack_entry p mtb tb o pm e ->
      (e_cell e).1 / 2 ^ (zoom_of pm - zoom_of pm') = (e_cell e').1 ->
      (e_cell e).2 / 2 ^ (zoom_of pm - zoom_of pm') = (e_cell e').2 ->
      nested_stack p mtb tb o (pm :: pm' :: pms) (e :: e' :: es).
(** Layers of a higher type have a higher zoom. *)
Definition types_by_zoom (pms : list subquery) : Prop :=
  forall pm pm', pm ∈ pms -> pm' ∈ pms -> type_of pm < type_of pm' ->
    zoom_of pm <= zoom_of pm' /\ zoom_of pm' - zoom_of pm < 16.
Definition all_covered (p : profile) (mtb : merge_tb) (tb : tiebreak) (o : match_opts) (pms : list subquery) : Prop :=
  forall pm e, pm ∈ pms -> stack_entry p mtb tb o pm e ->
  exists b, b ∈ st_bboxes (sq_store pm) /\
    bb_x0 b <= (e_cell e).1 <= bb_x1 b /\ bb_y0 b <= (e_cell e).2 <= bb_y1 b.
Definition crowded_key (p : profile) (mtb : merge_tb) (tb : tiebreak) (o : match_opts)
    (chain : list subquery) (es : list coalesce_entry) : Prop :=
  exists D, NoDup D /\ length D = 40%nat /\ forall es', es' ∈ D ->
    nested_stack p mtb tb o chain es' /\
    ce_phrasematch_id <$> head es' = ce_phrasematch_id <$> head es /\ es' <> es /\
    listed_before (stack_context chain es') (stack_context chain es).
