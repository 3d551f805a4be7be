(** Specification of matching queries: what an entry read by get or iter turns into. *)
From Verif Require Import Prelude F64 Common Morton Spatial Builder Store Spec.
From Coq Require Import Sorting.Sorted.

Definition phrase_sel (ph : match_phrase) (phrase : N) : bool :=
  match ph with
  | Exact id => phrase =? id
  | Range s e => (s <=? phrase) && (phrase <? e)
  end.
(** The inclusive box. *)
Definition box_sel (b : option bbox) (e : grid_entry) : bool :=
  match b with
  | None => true
  | Some b => (bb_x0 b <=? ge_x e) && (ge_x e <=? bb_x1 b) &&
              (bb_y0 b <=? ge_y e) && (ge_y e <=? bb_y1 b)
  end.
(** A key written for every language always matches. *)
Definition lang_sel (query key : N) : bool :=
  (key =? 2 ^ 128 - 1) || negb (N.land query key =? 0).

(** Distance of an entry from the proximity point; 0 without one. *)
Definition query_distance (o : match_opts) (e : grid_entry) : f64 :=
  match mo_prox o with
  | Some (px, py) => tile_dist px py (ge_x e) (ge_y e)
  | None => f_zero
  end.
Definition query_nearby (o : match_opts) (radius : f64) (e : grid_entry) : bool :=
  match mo_prox o with
  | Some _ => fleb (query_distance o e) (proximity_radius (mo_zoom o) radius)
  | None => false
  end.
Definition query_scoredist (o : match_opts) (radius : f64) (e : grid_entry) : f64 :=
  match mo_prox o with
  | Some _ => scoredist (mo_zoom o) (query_distance o e) (ge_score e) radius
  | None => f_of_N (ge_score e)
  end.
Definition query_match (o : match_opts) (radius : f64) (lang : bool) (e : grid_entry) : match_entry :=
  MatchEntry
    (GridEntry (fmul (ge_relev e) (if lang || query_nearby o radius e then f_one else f_lit 96 100))
               (ge_score e) (ge_x e) (ge_y e) (ge_id e) (ge_hash e))
    lang (query_distance o e) (query_scoredist o radius e).

(** The matches of a query, record by record, from the content of the store as
    listed by [iter]. *)
Definition record_matches (k : match_key) (o : match_opts) (radius : f64)
    (kv : (N * N) * list grid_entry) : list match_entry :=
  map (query_match o radius (lang_sel (mk_lang k) kv.1.2)) (List.filter (box_sel (mo_bbox o)) kv.2).
Definition expected_matches (k : match_key) (o : match_opts) (radius : f64)
    (kvs : list ((N * N) * list grid_entry)) : list match_entry :=
  mjoin (map (record_matches k o radius) (List.filter (fun kv => phrase_sel (mk_phrase k) kv.1.1) kvs)).

(** Queries within the documented ranges. A box whose corners are inverted in the
    interleaved order stops a debug build (see C14); the proximity radius in tiles
    must be finite. *)
Definition opts_ok (p : profile) (o : match_opts) (radius : f64) : Prop :=
  match mo_bbox o with
  | None => True
  | Some b => p = Release \/ interleave (bb_x0 b) (bb_y0 b) <= interleave (bb_x1 b) (bb_y1 b)
  end /\
  match mo_prox o with
  | None => True
  | Some pt => pt.1 < 2 ^ 16 /\ pt.2 < 2 ^ 16 /\
      match proximity_radius (N.max 6 (mo_zoom o)) radius with
      | S754_zero _ | S754_finite _ _ _ => True
      | _ => False
      end
  end.

(** Descending relevance, then descending scoredist. *)
Definition at_least_as_good (a b : match_entry) : Prop :=
  match ord_cmp (ge_relev (me_entry b)) (ge_relev (me_entry a)) with
  | Lt => True
  | Eq => ord_cmp (me_scoredist b) (me_scoredist a) <> Gt
  | Gt => False
  end.

(** ** Prefix bins *)
(** The boundaries in force at the end of a history. *)
Definition loaded (ops : list op) : list N :=
  foldl (fun bs o => match o with OpBounds bs' => bs' | _ => bs end) [] ops.
(** The bin of a phrase: the last boundary not above it. *)
Definition bin_of (bounds : list N) (phrase : N) : option N :=
  last (List.filter (fun b => b <=? phrase) bounds).
(** The entries written under one language set for the phrases of one bin. *)
Definition bin_entries (ops : list op) (gid l : N) : list grid_entry :=
  mjoin (map snd (List.filter
    (fun kv : (N * N) * list grid_entry =>
       match bin_of (loaded ops) kv.1.1 with Some g => g =? gid | None => false end && (kv.1.2 =? l))
    (map_to_list (written ops)))).
(** Increasing boundaries, no phrase below the first one, and at most 2^27 entries
    per bin and language set (the records stay below 4 GiB). *)
Definition bins_ok (ops : list op) : Prop :=
  StronglySorted (fun a b => a < b) (loaded ops) /\
  (forall k es, written ops !! k = Some es -> exists b, head (loaded ops) = Some b /\ b <= k.1) /\
  forall gid l, N.of_nat (length (bin_entries ops gid l)) <= 2 ^ 27.

(** ** What a query should find, from the history of calls *)
Definition should_match (ops : list op) (k : match_key) (o : match_opts) (radius : f64)
    (m : match_entry) : Prop :=
  exists key es e, written ops !! key = Some es /\ phrase_sel (mk_phrase k) key.1 = true /\
    e ∈ es /\ box_sel (mo_bbox o) e = true /\
    m = query_match o radius (lang_sel (mk_lang k) key.2) (snap e).

(** Queries within the documented ranges: phrase id 2^32-1 is not usable (C24), and
    a range whose ends are both boundaries is answered from bins (C21, C22). *)
Definition query_ok (ops : list op) (ph : match_phrase) : Prop :=
  match ph with
  | Exact id => id < 2 ^ 32 - 1
  | Range a b => a < 2 ^ 32 /\ (a ∈ loaded ops -> b ∈ loaded ops -> bins_ok ops)
  end.

(** Equal in relevance and scoredist. *)
Definition same_rank (a b : match_entry) : Prop :=
  ord_cmp (ge_relev (me_entry a)) (ge_relev (me_entry b)) = Eq /\
  ord_cmp (me_scoredist a) (me_scoredist b) = Eq.
