(** Specification vocabulary: where a result comes from, in terms of the calls that wrote
    it, and where it lies. *)
From Verif Require Import Prelude F64 Heap Common Builder Spatial Store Spec Spec_match Query Coalesce Stackable
  Spec_coalesce Spec_stack Spec_tree Props_zoom.
Local Open Scope N_scope.

(** The tile ([x], [y]) of zoom [z'] and the box [b] of zoom [z] share some ground. *)
Definition shares_ground (z : N) (b : bbox) (z' x y : N) : Prop :=
  (z' <= z -> exists x0 y0, in_box b x0 y0 /\ ancestor (z - z') (x0, y0) = (x, y)) /\
  (z < z' -> in_box b (x / 2 ^ (z' - z)) (y / 2 ^ (z' - z))).
(** The tile of zoom [z'] for the point [pt] of zoom [z]: the one above it, or the one
    just before the middle of its ground. *)
Definition place (z : N) (pt : N * N) (z' : N) : N * N :=
  if z' <=? z then ancestor (z - z') pt
  else let s := 2 ^ (z' - z) in (pt.1 * s + (s / 2 - 1), pt.2 * s + (s / 2 - 1)).

(** Options of a zoom up to 15, with tiles that exist, and a box that is not inverted. *)
Definition sane (o : match_opts) : Prop :=
  mo_zoom o <= 15 /\ (forall pt, mo_prox o = Some pt -> tile_at (mo_zoom o) pt) /\
  forall b, mo_bbox o = Some b -> box_at (mo_zoom o) b /\ bb_x0 b <= bb_x1 b /\ bb_y0 b <= bb_y1 b.
(** The store of a subquery was written by [ops], and its keys can be looked up. *)
Definition written_by (ops : list op) (pm : subquery) : Prop :=
  history_ok ops /\ (exists ho, built ho ops (sq_store pm)) /\ zoom_of pm <= 15 /\
  (forall k, k ∈ sq_keys pm -> query_ok ops (mk_phrase (mki_key k))) /\
  match proximity_radius (N.max 6 (zoom_of pm)) (st_radius (sq_store pm)) with
  | S754_zero _ | S754_finite _ _ _ => True
  | _ => False
  end.

(** [e] is an entry that was written for a phrase that the key asks for. The relevance is
    the one of the format, less 4 % where the language does not match, times the weight. *)
Definition came_from (ops : list op) (pm : subquery) (k : match_key_id) (e : coalesce_entry) : Prop :=
  exists key es w, written ops !! key = Some es /\ phrase_sel (mk_phrase (mki_key k)) key.1 = true /\ w ∈ es /\
    ge_score (ce_entry e) = ge_score w /\ ge_x (ce_entry e) = ge_x w /\ ge_y (ce_entry e) = ge_y w /\
    ge_id (ce_entry e) = ge_id w mod 2 ^ 24 /\ ge_hash (ce_entry e) = ge_hash w /\
    ce_lang e = lang_sel (mk_lang (mki_key k)) key.2 /\ ce_idx e = sq_idx pm /\ ce_mask e = sq_mask pm /\
    ce_tmp_id e = (sq_idx pm * 2 ^ 25 + ge_id (ce_entry e)) mod 2 ^ 32 /\
    exists f, (f = f_one \/ f = f_lit 96 100 /\ ce_lang e = false) /\
      ge_relev (ce_entry e) = fmul (fmul (snap_relev (ge_relev w)) f) (sq_weight pm).
(** The tile ([x], [y]) of a layer is where the query asks. *)
Definition tile_in (o : match_opts) (pm : subquery) (x y : N) : Prop :=
  forall b, mo_bbox o = Some b -> shares_ground (mo_zoom o) b (zoom_of pm) x y.
(** It is within 25 miles of the point, measured in tiles of the layer. *)
Definition tile_near (o : match_opts) (pm : subquery) (x y : N) : Prop :=
  forall pt, mo_prox o = Some pt -> let pt' := place (mo_zoom o) pt (zoom_of pm) in
    near (nearby_padding (zoom_of pm)) x pt'.1 /\ near (nearby_padding (zoom_of pm)) y pt'.2.
Definition lies_in (o : match_opts) (pm : subquery) (e : coalesce_entry) : Prop :=
  tile_in o pm (e_cell e).1 (e_cell e).2.
Definition lies_near (o : match_opts) (pm : subquery) (e : coalesce_entry) : Prop :=
  tile_near o pm (e_cell e).1 (e_cell e).2.

(** ** What a query should find *)
(** [w] was written for a phrase that the key asks for, and is where the query asks. *)
Definition wanted (ops : list op) (o : match_opts) (pm : subquery) (k : match_key_id) (w : grid_entry) : Prop :=
  k ∈ sq_keys pm /\
  (exists key es, written ops !! key = Some es /\ phrase_sel (mk_phrase (mki_key k)) key.1 = true /\ w ∈ es) /\
  tile_in o pm (ge_x w) (ge_y w) /\ (mki_nearby k = true -> tile_near o pm (ge_x w) (ge_y w)).
(** One written entry for each layer, the tile of each in the tile of the next. *)
Inductive written_stack (calls : subquery -> list op) (o : match_opts) :
    list subquery -> list (match_key_id * grid_entry) -> Prop :=
  | ws_one pm k w : wanted (calls pm) o pm k w -> written_stack calls o [pm] [(k, w)]
  | ws_more pm k w pm' k' w' pms ws :
      written_stack calls o (pm' :: pms) ((k', w') :: ws) -> wanted (calls pm) o pm k w ->
      ancestor (zoom_of pm - zoom_of pm') (ge_x w, ge_y w) = (ge_x w', ge_y w') ->
      written_stack calls o (pm :: pm' :: pms) ((k, w) :: (k', w') :: ws).
(** [e] is for the same key, tile and feature. *)
Definition stands_for (kw : match_key_id * grid_entry) (e : coalesce_entry) : Prop :=
  ce_phrasematch_id e = mki_id kw.1 /\ e_cell e = (ge_x kw.2, ge_y kw.2) /\ e_id e = ge_id kw.2 mod 2 ^ 24.
(** The boxes of the store cover what was written. *)
Definition covers (ops : list op) (pm : subquery) : Prop :=
  forall key es w, written ops !! key = Some es -> w ∈ es ->
  exists b, b ∈ st_bboxes (sq_store pm) /\ in_box b (ge_x w) (ge_y w).
(** Requirements on the subqueries of a request. *)
Record proper (calls : subquery -> list op) (pms : list subquery) : Prop := {
  pr_nodup : NoDup pms;
  pr_ids : forall pm1 pm2 k1 k2, pm1 ∈ pms -> pm2 ∈ pms -> k1 ∈ sq_keys pm1 -> k2 ∈ sq_keys pm2 -> mki_id k1 = mki_id k2 -> pm1 = pm2;
  pr_distinct : forall pm, pm ∈ pms -> NoDup (map mki_id (sq_keys pm));
  (** Fewer than 2000 stacks, and weights that do not add up to infinity. *)
  pr_few : forall cs, NoDup cs -> (forall c, c ∈ cs -> c <> [] /\ legal pms c) -> N.of_nat (length cs) < 2000;
  pr_finite : forall c, legal pms c -> ord_cmp (sum_weights c) f_max <> Gt;
  (** Layers of a higher type have a higher zoom. *)
  pr_types : forall pm pm', pm ∈ pms -> pm' ∈ pms -> type_of pm < type_of pm' -> zoom_of pm <= zoom_of pm' /\ zoom_of pm' - zoom_of pm < 16;
  pr_written : forall pm, pm ∈ pms -> written_by (calls pm) pm;
  pr_covers : forall pm, pm ∈ pms -> covers (calls pm) pm }.
(** Less than 100000 records answer a key. *)
Definition short_answers (p : profile) (mtb : merge_tb) (tb : tiebreak) (o : match_opts) (pms : list subquery) : Prop :=
  forall pm k ko out, pm ∈ pms -> k ∈ sq_keys pm -> key_opts p o pm k ko ->
  streaming_get_matching p mtb tb (sq_store pm) (mki_key k) ko 100000 = Ok out -> N.of_nat (length out) < 100000.

(** ** What coalesce should find *)
(** It looks up the first key of each layer, nearby or not. *)
Definition asked (ops : list op) (o : match_opts) (sq : subquery) (w : grid_entry) : Prop :=
  exists k ks, sq_keys sq = k :: ks /\
  (exists key es, written ops !! key = Some es /\ phrase_sel (mk_phrase (mki_key k)) key.1 = true /\ w ∈ es) /\
  tile_in o sq (ge_x w) (ge_y w).
Section layers.
  Context (calls : subquery -> list op) (o : match_opts) (layers : list subquery).
  (** Written for the first layer, or inside the tile of such an entry of an earlier layer
      with another index and other words of the query. *)
  Inductive standing : nat -> grid_entry -> Prop :=
    | standing_first sq w : layers !! 0%nat = Some sq -> asked (calls sq) o sq w -> standing 0 w
    | standing_on i sq w j sq' w' : (j < i)%nat -> layers !! i = Some sq -> layers !! j = Some sq' ->
        asked (calls sq) o sq w -> standing j w' -> sq_idx sq' <> sq_idx sq -> N.land (sq_mask sq) (sq_mask sq') = 0 ->
        ancestor (zoom_of sq - zoom_of sq') (ge_x w, ge_y w) = (ge_x w', ge_y w') -> standing i w.
  (** Such entries, and all those of the last layer. *)
  Definition expected (i : nat) (w : grid_entry) : Prop :=
    standing i w \/ S i = length layers /\ exists sq, layers !! i = Some sq /\ asked (calls sq) o sq w.
End layers.
(** Less than [n] records answer the first key of a layer. *)
Definition first_short (p : profile) (mtb : merge_tb) (tb : tiebreak) (o : match_opts) (n : N) (sq : subquery) : Prop :=
  forall k ks zo out, sq_keys sq = k :: ks -> adjust_to_zoom p o (zoom_of sq) = Ok zo ->
  streaming_get_matching p mtb tb (sq_store sq) (mki_key k) zo n = Ok out -> N.of_nat (length out) < n.
