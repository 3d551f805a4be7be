(** Specification vocabulary for tree_coalesce: the contexts that a path of the
    stacking tree stands for. *)
From Verif Require Import Prelude F64 Heap Common Store Query Stackable Spec_coalesce Spec_stack.
Local Open Scope N_scope.

(** Zoom of the layer of a subquery. *)
Definition zoom_of (pm : subquery) : N := st_zoom (sq_store pm).

(** The options for one key of a layer: the options of the call at the zoom of the
    layer, restricted to the neighbourhood if the key says so. *)
Definition key_opts (p : profile) (o : match_opts) (pm : subquery) (k : match_key_id) (ko : match_opts) : Prop :=
  exists zo, adjust_to_zoom p o (zoom_of pm) = Ok zo /\
    (if mki_nearby k then with_nearby_only p zo else Ok zo) = Ok ko.
(** A match of one of the keys of a layer; [n] is the number of records looked at. *)
Definition key_match (p : profile) (mtb : merge_tb) (tb : tiebreak) (o : match_opts) (n : N)
    (pm : subquery) (k : match_key_id) (g : match_entry) : Prop :=
  exists ko out, k ∈ sq_keys pm /\ key_opts p o pm k ko /\
    streaming_get_matching p mtb tb (sq_store pm) (mki_key k) ko n = Ok out /\ g ∈ out.
Definition level_entry (p : profile) (mtb : merge_tb) (tb : tiebreak) (o : match_opts) (n : N)
    (pm : subquery) (e : coalesce_entry) : Prop :=
  exists k g, key_match p mtb tb o n pm k g /\ to_entry pm (mki_id k) g e.

(** [e], of layer [pm], lies in the cell of [e'], of the coarser layer [pm']. A debug
    build stops unless [pm'] is coarser by less than 16 zooms. *)
Definition inside (p : profile) (pm pm' : subquery) (e e' : coalesce_entry) : Prop :=
  (p = Debug -> zoom_of pm' <= zoom_of pm /\ zoom_of pm - zoom_of pm' < 16) /\
  (zoom_of pm' <= zoom_of pm -> zoom_of pm - zoom_of pm' < 16 ->
   (e_cell e).1 / 2 ^ (zoom_of pm - zoom_of pm') = (e_cell e').1 /\
   (e_cell e).2 / 2 ^ (zoom_of pm - zoom_of pm') = (e_cell e').2).

(** One entry per level, innermost first; both lists in the same order. *)
Inductive stack_of (p : profile) (mtb : merge_tb) (tb : tiebreak) (o : match_opts) :
    list subquery -> list coalesce_entry -> Prop :=
  | stack_one pm e : level_entry p mtb tb o 100000 pm e -> stack_of p mtb tb o [pm] [e]
  | stack_more pm e pm' e' pms es :
      level_entry p mtb tb o 100000 pm e -> inside p pm pm' e e' ->
      stack_of p mtb tb o (pm' :: pms) (e' :: es) ->
      stack_of p mtb tb o (pm :: pm' :: pms) (e :: e' :: es).

(** The relevances, added from the outermost entry inwards. *)
Fixpoint sum_relev (es : list coalesce_entry) : f64 :=
  match es with
  | [] => f_zero
  | [e] => e_relev e
  | e :: es' => fadd (sum_relev es') (e_relev e)
  end.
(** A context of one entry, or whose innermost mask exceeds the next one. *)
Definition ascending (es : list coalesce_entry) : bool :=
  match es with
  | e0 :: e1 :: _ => ce_mask e1 <? ce_mask e0
  | _ => true
  end.

(** The subqueries in a tree, and: the same key id is only used for the same key of
    the same store. *)
Definition in_tree (t : tree) (pm : subquery) : Prop :=
  exists i n, tree_get t i = Some n /\ sn_pm n = Some pm.
Definition ids_name_keys (S : subquery -> Prop) : Prop :=
  forall pm1 pm2 k1 k2, S pm1 -> S pm2 -> k1 ∈ sq_keys pm1 -> k2 ∈ sq_keys pm2 -> mki_id k1 = mki_id k2 ->
    sq_store pm1 = sq_store pm2 /\ mki_key k1 = mki_key k2 /\ mki_nearby k1 = mki_nearby k2.
