(** Specification vocabulary for when a search answers at all. *)
From Verif Require Import Prelude F64 Common Spatial Builder Store Spec Spec_match Query Coalesce Stackable Spec_stack Tree Spec_tree Props_zoom.
Local Open Scope N_scope.

(** The proximity radius of the store is a finite number of tiles. *)
Definition finite_tiles (s : store) : Prop :=
  match proximity_radius (N.max 6 (st_zoom s)) (st_radius s) with
  | S754_zero _ | S754_finite _ _ _ => True
  | _ => False
  end.
(** The subquery has a key, and asks a store that was written by calls in range for
    phrases in range. *)
Definition answerable (pm : subquery) : Prop :=
  sq_keys pm <> [] /\ finite_tiles (sq_store pm) /\
  forall k, k ∈ sq_keys pm ->
    exists ho ops, history_ok ops /\ built ho ops (sq_store pm) /\ query_ok ops (mk_phrase (mki_key k)).
(** The coordinates of the proximity point are 16-bit numbers, the range of their type. *)
Definition prox_u16 (o : match_opts) : Prop :=
  forall pt, mo_prox o = Some pt -> pt.1 < 2 ^ 16 /\ pt.2 < 2 ^ 16.
(** What a build with overflow checks and debug assertions needs in addition. *)
Record careful (o : match_opts) (pms : list subquery) : Prop := {
  (** Zooms of at most 15, tiles of these zooms, boxes that are not empty. *)
  ca_zoom : mo_zoom o <= 15;
  ca_prox : forall pt, mo_prox o = Some pt -> tile_at (mo_zoom o) pt;
  ca_box : forall b, mo_bbox o = Some b -> box_at (mo_zoom o) b /\ bb_x0 b <= bb_x1 b /\ bb_y0 b <= bb_y1 b;
  ca_stores : forall pm, pm ∈ pms -> zoom_of pm <= 15;
  (** A higher type never has a lower zoom. *)
  ca_types : forall pm pm', pm ∈ pms -> pm' ∈ pms -> type_of pm < type_of pm' -> zoom_of pm <= zoom_of pm';
  ca_ranges : forall pm k a b, pm ∈ pms -> k ∈ sq_keys pm -> mk_phrase (mki_key k) = Range a b -> a <= b;
  (** Nearby-only keys together with a box: the proximity point is in the box. *)
  ca_near : forall pm k pt b, pm ∈ pms -> k ∈ sq_keys pm -> mki_nearby k = true ->
    mo_prox o = Some pt -> mo_bbox o = Some b -> in_box b pt.1 pt.2 }.
(** The part of this that the flat search needs, which knows no ranges, types or
    nearby-only keys. *)
Record flat_careful (o : match_opts) (stack : list subquery) : Prop := {
  fc_zoom : mo_zoom o <= 15;
  fc_prox : forall pt, mo_prox o = Some pt -> tile_at (mo_zoom o) pt;
  fc_box : forall b, mo_bbox o = Some b -> box_at (mo_zoom o) b /\ bb_x0 b <= bb_x1 b /\ bb_y0 b <= bb_y1 b;
  fc_stores : forall sq, sq ∈ stack -> zoom_of sq <= 15 }.
(** Options given at the zoom of the only layer. *)
Definition own_zoom (o : match_opts) (stack : list subquery) : Prop :=
  forall sq, stack = [sq] -> mo_zoom o = zoom_of sq.
