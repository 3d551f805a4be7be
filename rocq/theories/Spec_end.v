(** Specification vocabulary: from the calls of JavaScript to the results of JavaScript. *)
From Coq Require Import Sorting.Sorted.
From Verif Require Import Prelude F64 Heap Common Builder Spatial Store Spec Spec_match Query Coalesce Stackable Tree Native Spec_native Spec_js
  Spec_coalesce Spec_stack Spec_tree Props_zoom Spec_ground.
Local Open Scope N_scope.

(** A call writes an entry under a key. *)
Inductive js_writes : js_call -> N * N -> grid_entry -> Prop :=
| writes_insert k key es w : as_key k key -> w ∈ es -> js_writes (JsInsert k (Some es)) key w
| writes_append k key es w : as_key k key -> w ∈ es -> js_writes (JsAppend k (Some es)) key w
| writes_compact k key relev score sc id i hash h cs x y :
    as_key k key -> as_uint (2 ^ 8 - 1) score sc -> as_uint (2 ^ 32 - 1) id i -> as_uint (2 ^ 8 - 1) hash h -> (x, y) ∈ cs ->
    js_writes (JsCompact k (JsNumber relev) (JsNumber score) (JsNumber id) (JsNumber hash) (Some cs)) key
              (GridEntry relev sc x y i h).
(** It is not overwritten: no later insert() for the same key. *)
Definition js_holds (cs : list js_call) (key : N * N) (w : grid_entry) : Prop :=
  exists before c after, cs = before ++ c :: after /\ js_writes c key w /\
    forall k es, JsInsert k (Some es) ∈ after -> ~ as_key k key.

(** The store was opened on a directory for which these calls, then finish(), were made, and
    finish() succeeded. *)
Definition indexed (cs : list js_call) (s : store) : Prop :=
  exists o rs d zoom type_id radius bboxes max_score, JsFinish ∉ cs /\ (forall ids, JsRenumber ids ∉ cs) /\
    js_run o (Some builder_new, ∅) (cs ++ [JsFinish]) = (rs, (None, d)) /\ last rs = Some (Ok tt) /\
    s = open_store d zoom type_id radius bboxes max_score.
(** The calls are in range, the phrase of the object can be looked up, zoom and radius are
    within bounds. *)
Definition ready (cs : list js_call) (j : js_phrasematch) : Prop :=
  indexed cs (jp_store j) /\
  (forall ops, accepted cs ops -> history_ok ops /\ forall ph, jp_phrase j = Some ph -> query_ok ops ph) /\
  st_zoom (jp_store j) <= 15 /\
  match proximity_radius (N.max 6 (st_zoom (jp_store j))) (st_radius (jp_store j)) with
  | S754_zero _ | S754_finite _ _ _ => True
  | _ => False
  end.

(** The tile is where the options ask. *)
Definition js_in (o : match_opts) (j : js_phrasematch) (x y : N) : Prop :=
  forall b, mo_bbox o = Some b -> shares_ground (mo_zoom o) b (st_zoom (jp_store j)) x y.
Definition js_near (o : match_opts) (j : js_phrasematch) (x y : N) : Prop :=
  forall pt, mo_prox o = Some pt -> let z := st_zoom (jp_store j) in let pt' := place (mo_zoom o) pt z in
    near (nearby_padding z) x pt'.1 /\ near (nearby_padding z) y pt'.2.
(** The object asks for the entry. *)
Definition js_wanted (cs : list js_call) (o : match_opts) (j : js_phrasematch) (w : grid_entry) : Prop :=
  (exists key ph, js_holds cs key w /\ jp_phrase j = Some ph /\ phrase_sel ph key.1 = true) /\
  js_in o j (ge_x w) (ge_y w) /\ (jp_nearby j = JsBoolean true -> js_near o j (ge_x w) (ge_y w)).
(** An entry of a result, for an object and an entry that was written. *)
Definition js_result (j : js_phrasematch) (w : grid_entry) (e : coalesce_entry) : Prop :=
  jp_id j = Some (ce_phrasematch_id e) /\ jp_idx j = Some (ce_idx e) /\ jp_mask j = Some (ce_mask e) /\
  ge_score (ce_entry e) = ge_score w /\ ge_x (ce_entry e) = ge_x w /\ ge_y (ce_entry e) = ge_y w /\
  ge_id (ce_entry e) = ge_id w mod 2 ^ 24 /\ ge_hash (ce_entry e) = ge_hash w /\
  exists wt f, jp_weight j = Some wt /\ (f = f_one \/ f = f_lit 96 100 /\ ce_lang e = false) /\
    ge_relev (ce_entry e) = fmul (fmul (snap_relev (ge_relev w)) f) wt.

(** One entry for each object, the tile of each in the tile of the next. *)
Inductive js_stack (calls : js_phrasematch -> list js_call) (o : match_opts) : list js_phrasematch -> list grid_entry -> Prop :=
| jst_one j w : js_wanted (calls j) o j w -> js_stack calls o [j] [w]
| jst_more j w j' w' js ws :
    js_stack calls o (j' :: js) (w' :: ws) -> js_wanted (calls j) o j w ->
    ancestor (st_zoom (jp_store j) - st_zoom (jp_store j')) (ge_x w, ge_y w) = (ge_x w', ge_y w') ->
    js_stack calls o (j :: j' :: js) (w :: w' :: ws).
(** The quotas do not apply to the object: an exact phrase (or a range of at most one), or a
    mask of several words; and a store of zoom 14 or more is only asked for what is nearby. *)
Definition js_unlimited (j : js_phrasematch) : Prop :=
  (forall s e m, jp_phrase j = Some (Range s e) -> jp_mask j = Some m -> s <= e <= s + 1 \/ count_ones m <> 1) /\
  (14 <= st_zoom (jp_store j) -> jp_nearby j = JsBoolean true).
(** The boxes of the store cover what was written. *)
Definition js_covers (cs : list js_call) (j : js_phrasematch) : Prop :=
  forall key w, js_holds cs key w -> exists b, b ∈ st_bboxes (jp_store j) /\ in_box b (ge_x w) (ge_y w).
(** Stores of a higher type have a higher zoom. *)
Definition js_types (js : list js_phrasematch) : Prop :=
  forall a b, a ∈ js -> b ∈ js -> st_type_id (jp_store a) < st_type_id (jp_store b) ->
    st_zoom (jp_store a) <= st_zoom (jp_store b) /\ st_zoom (jp_store b) - st_zoom (jp_store a) < 16.
(** Objects that may be stacked, the innermost first: types decrease, no two share a word of
    the query, and none excludes the index of the next. *)
Definition js_legal (js : list js_phrasematch) : Prop :=
  StronglySorted (fun a b => st_type_id (jp_store b) < st_type_id (jp_store a)) js /\
  (forall i k a b ma mb, i <> k -> js !! i = Some a -> js !! k = Some b -> jp_mask a = Some ma -> jp_mask b = Some mb -> N.land ma mb = 0) /\
  forall i a b non idx, js !! i = Some a -> js !! S i = Some b -> jp_nonoverlap a = Some non -> jp_idx b = Some idx -> idx ∉ non.
