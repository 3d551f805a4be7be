(** Model of /repo/rust-src/src/gridstore/store.rs. *)
From Verif Require Import Prelude F64 Heap Common Morton Format Spatial Builder.

(** struct GridStore, 20-32 (without the path). *)
Record store := Store {
  st_db : gmap (list N) (list N);
  st_bounds : list N;
  st_zoom : N;
  st_type_id : N;
  st_radius : f64;
  st_bboxes : list bbox;
  st_max_score : f64 }.

(** [relev_score >> 4] and [relev_score & 15], 57-59. *)
Definition unpack_relev (rs : N) : f64 := relev_int_to_float (N.shiftr rs 4).
Definition unpack_score (rs : N) : N := N.land rs 15.
(** [id_comp >> 8] and [id_comp & 255], 70-71. *)
Definition unpack_id (v : N) : N := N.shiftr v 8.
Definition unpack_hash (v : N) : N := N.land v 255.

(** decode_value, 35-77. *)
Definition decode_value (value : bytes) : res (list grid_entry) :=
  let* root := read_root value in
  let* rss := read_var_vec value root in
  let* groups := res_mapM (fun rs =>
    let* coords := read_uniform_vec value (rs_coords rs) in
    let* cells := res_mapM (fun c =>
      let '(x, y) := deinterleave (c_coord c) in
      let* ids := read_fixed_vec value (c_ids c) in
      Ok (map (fun v => GridEntry (unpack_relev (rs_value rs)) (unpack_score (rs_value rs))
                                  x y (unpack_id v) (unpack_hash v)) ids)) coords in
    Ok (mjoin cells)) rss in
  Ok (mjoin groups).

(** itertools' [kmerge_by]: repeatedly yield the first element of a stream whose
    first element [before]s no other stream's should precede it. The heap inside
    holds one element per non-empty stream; [first a b] is the user's predicate
    "a goes before b". The oracle sees the input streams and the step number. *)
Definition merge_tb := forall A : Type, list (list A) -> nat -> nat.
Section kmerge.
  Context {A : Type} (first : A -> A -> bool).
  (** Streams whose head is preceded by no other head. *)
  Definition head_ok (ss : list (list A)) (i : nat) : bool :=
    match ss !! i with
    | Some (a :: _) =>
        forallb (fun s => match s with b :: _ => negb (first b a) | [] => true end) ss
    | _ => false
    end.
  Fixpoint kmerge_loop (fuel : nat) (tb : nat -> nat) (ss : list (list A)) : list A :=
    match fuel with
    | O => []
    | S f =>
        let cands := List.filter (head_ok ss) (seq 0 (length ss)) in
        match cands !! (tb fuel mod length cands)%nat with
        | Some i =>
            match ss !! i with
            | Some (a :: s) => a :: kmerge_loop f tb (<[i := s]> ss)
            | _ => []
            end
        | None => []
        end
    end.
  Definition kmerge (tb : merge_tb) (ss : list (list A)) : list A :=
    kmerge_loop (length (mjoin ss)) (tb A ss) ss.
End kmerge.

(** The tuple built at 172. *)
Record scored := Scored {
  sc_distance : f64; sc_within : bool; sc_score : N; sc_dist : f64;
  sc_x : N; sc_y : N; sc_ids : N }.

(** 156-173: distance, radius test and scoredist of one cell. *)
Definition score_cell (o : match_opts) (radius : f64) (score : N) (c : coord) : scored :=
  let '(x, y) := deinterleave (c_coord c) in
  match mo_prox o with
  | Some (px, py) =>
      let d := tile_dist px py x y in
      Scored d (fleb d (proximity_radius (mo_zoom o) radius)) score
             (scoredist (mo_zoom o) d score radius) x y (c_ids c)
  | None => Scored f_zero false score (f_of_N score) x y (c_ids c)
  end.

(** 121-154: the cells of one score group selected and ordered by the options. *)
Definition select_coords (p : profile) (o : match_opts) (coords : list coord)
  : res (list coord) :=
  let* r :=
    match mo_bbox o, mo_prox o with
    | None, None => Ok (Some coords)
    | Some b, None => bbox_filter p coords b
    | None, Some pt => proximity coords pt
    | Some b, Some pt => bbox_proximity_filter p coords b pt
    end in
  Ok (default [] r).

(** 181: [scoredist1.partial_cmp(scoredist2).unwrap() == Greater]. *)
Definition scoredist_before (a b : scored) : bool :=
  match SFcompare (sc_dist a) (sc_dist b) with Some Gt => true | _ => false end.
(** The [unwrap] panics on NaN. A comparison only happens when there are at least two
    streams with elements left; the model panics when there are two to begin with and any
    of them contains a NaN (the source is lazy and panics when it gets to that element,
    see Lazy.v). *)
Definition nonempty {A} (l : list A) : bool := match l with [] => false | _ => true end.
Definition kmerge_panics (ss : list (list scored)) : bool :=
  match List.filter nonempty ss with
  | [] | [_] => false
  | _ => existsb (existsb (fun s => f_is_nan (sc_dist s))) ss
  end.

(** 189-211. *)
Definition mk_match (relev : f64) (lang : bool) (s : scored) (v : N) : match_entry :=
  MatchEntry
    (GridEntry (fmul relev (if lang || sc_within s then f_one else f_096))
               (sc_score s) (sc_x s) (sc_y s) (unpack_id v) (unpack_hash v))
    lang (sc_distance s) (sc_dist s).

(** decode_matching_value, 80-215. *)
Definition decode_relev_group (p : profile) (tb : merge_tb) (value : bytes) (o : match_opts)
    (lang : bool) (radius : f64) (g : f64 * list relev_score) : res (list match_entry) :=
  let* streams := res_mapM (fun rs =>
    let* coords := read_uniform_vec value (rs_coords rs) in
    let* sel := select_coords p o coords in
    Ok (map (score_cell o radius (unpack_score (rs_value rs))) sel)) g.2 in
  if kmerge_panics streams then Panic
  else
    let* ms := res_mapM (fun s =>
      let* ids := read_fixed_vec value (sc_ids s) in
      Ok (map (mk_match g.1 lang s) ids)) (kmerge scoredist_before tb streams) in
    Ok (mjoin ms).
Definition decode_matching_value (p : profile) (tb : merge_tb) (value : bytes) (o : match_opts)
    (lang : bool) (radius : f64) : res (list match_entry) :=
  let* root := read_root value in
  let* rss := read_var_vec value root in
  let groups := eager_groupby (fun rs => unpack_relev (rs_value rs)) feqb rss in
  let* out := res_mapM (decode_relev_group p tb value o lang radius) groups in
  Ok (mjoin out).

(** QueueElement, 217-253: the entry to be returned next and the rest. *)
Notation queue_elem := (match_entry * list match_entry)%type (only parsing).
Definition match_cmp (a b : match_entry) : comparison :=
  ord_cmp (ge_relev (me_entry a)) (ge_relev (me_entry b)) <;>
  ord_cmp (me_scoredist a) (me_scoredist b) <;>
  cmp_bool (me_lang a) (me_lang b) <;>
  N.compare (ge_x (me_entry a)) (ge_x (me_entry b)) <;>
  N.compare (ge_y (me_entry a)) (ge_y (me_entry b)) <;>
  N.compare (ge_id (me_entry a)) (ge_id (me_entry b)).
Definition queue_cmp (a b : queue_elem) : comparison := match_cmp a.1 b.1.

(** [slice::chunks(4)] keeping the full chunks, 281-290. *)
Fixpoint decode_bounds (bs : bytes) : list N :=
  match bs with
  | a :: b :: c :: d :: bs' => le_value [a; b; c; d] :: decode_bounds bs'
  | _ => []
  end.

(** new_with_options, 264-305 and new, 256-258. *)
Definition open_store (d : db) (zoom type_id : N) (radius : f64) (bboxes : list bbox)
    (max_score : f64) : store :=
  Store d (match d !! bounds_key with Some e => decode_bounds e | None => [] end)
        zoom type_id radius bboxes max_score.
Definition open_default (d : db) : store :=
  open_store d 6 0 f_zero [BBox 0 0 63 63] f_zero.

(** might_be_slow, 260-262. *)
Definition might_be_slow (s : store) : bool := 14 <=? st_zoom s.

(** RocksDB iteration is in lexicographic byte order. *)
Fixpoint bytes_cmp (a b : bytes) : comparison :=
  match a, b with
  | [], [] => Eq
  | [], _ :: _ => Lt
  | _ :: _, [] => Gt
  | x :: a', y :: b' => N.compare x y <;> bytes_cmp a' b'
  end.
Definition bytes_leb (a b : bytes) : bool :=
  match bytes_cmp a b with Gt => false | _ => true end.
Definition db_iter (d : db) : list (bytes * bytes) :=
  isort (fun a b => bytes_leb a.1 b.1) (map_to_list d).
(** [IteratorMode::From(start, Forward)]. *)
Definition db_iter_from (d : db) (start : bytes) : list (bytes * bytes) :=
  List.filter (fun kv => bytes_leb start kv.1) (db_iter d).

(** get, 308-316. *)
Definition get (s : store) (key : grid_key) : res (option (list grid_entry)) :=
  match st_db s !! write_key SinglePhrase key with
  | Some v => let* es := decode_value v in Ok (Some es)
  | None => Ok None
  end.

(** [take_while(|k| range_key.matches_key(..).unwrap())], 345: an [Err] of
    matches_key is a panic. *)
Fixpoint take_matching (k : match_key) (m : type_marker) (l : list (bytes * bytes))
  : res (list (bytes * bytes)) :=
  match l with
  | [] => Ok []
  | kv :: l' =>
      match matches_key k m kv.1 with
      | Ok true => let* rest := take_matching k m l' in Ok (kv :: rest)
      | Ok false => Ok []
      | Diverge => Diverge
      | _ => Panic
      end
  end.

(** The fetch range, 324-333. *)
Definition fetch_range (p : profile) (s : store) (ph : match_phrase)
  : res (N * N * type_marker) :=
  match ph with
  | Exact id => let* e := uadd p 32 id 1 in Ok (id, e, SinglePhrase)
  | Range st en =>
      if existsb (N.eqb st) (st_bounds s) && existsb (N.eqb en) (st_bounds s)
      then Ok (st, en, PrefixBin)
      else Ok (st, en, SinglePhrase)
  end.

(** One record of the loop at 349-366. *)
Definition queue_record (p : profile) (mtb : merge_tb) (tb : tiebreak) (s : store) (k : match_key)
    (o : match_opts) (max_values : N) (q : heap queue_elem) (kv : bytes * bytes)
  : res (heap queue_elem) :=
  let* lang :=
    match matches_language k kv.1 with Ok b => Ok b | Diverge => Diverge | _ => Panic end in
  let* es := decode_matching_value p mtb kv.2 o lang (st_radius s) in
  match es with
  | [] => Ok q
  | e :: es' =>
      if max_values <=? hp_len q then
        match hp_peek_min queue_cmp tb q with
        | None => Panic
        | Some worst =>
            match queue_cmp worst (e, es') with
            | Lt => Ok (hp_replace_min queue_cmp tb q (e, es'))
            | _ => Ok q
            end
        end
      else Ok (hp_push q (e, es'))
  end.

(** The iterator at 368-380, drained. *)
Fixpoint drain_queue (tb : tiebreak) (fuel : nat) (q : heap queue_elem) : list match_entry :=
  match fuel with
  | O => []
  | S f =>
      match hp_max_idx queue_cmp tb q with
      | None => []
      | Some i =>
          match hp_items q !! i with
          | Some (e, e' :: rest) => e :: drain_queue tb f (hp_replace q i (e', rest))
          | Some (e, []) => e :: drain_queue tb f (hp_remove q i)
          | None => []
          end
      end
  end.
Definition queue_size (q : heap queue_elem) : nat :=
  length (mjoin (map (fun e : queue_elem => e.1 :: e.2) (hp_items q))).

(** streaming_get_matching, 318-382. *)
Definition streaming_get_matching (p : profile) (mtb : merge_tb) (tb : tiebreak) (s : store)
    (k : match_key) (o : match_opts) (max_values : N) : res (list match_entry) :=
  let* (st, en, marker) := fetch_range p s (mk_phrase k) in
  let range_key := MatchKey (Range st en) (mk_lang k) in
  let* recs := take_matching range_key marker
                 (db_iter_from (st_db s) (write_start marker range_key)) in
  let* q := res_foldl (queue_record p mtb tb s k o max_values) hp_empty recs in
  Ok (drain_queue tb (queue_size q) q).

(** The key decoding of keys and iter, 387-400. *)
Definition read_key (db_key : bytes) : res grid_key :=
  let* phrase := read_key_phrase db_key in
  let* partial := slice_from db_key 5 in
  let* lang := match partial with [] => Ok u128_max | _ => read_lang partial end in
  Ok (phrase, lang).

(** [take_while(|(key, _)| key[0] == 0)], 386 (panics on an empty key, which is
    never written). *)
Definition single_records (d : db) : list (bytes * bytes) :=
  take_while (fun kv => match kv.1 with b :: _ => b =? 0 | [] => false end) (db_iter d).

(** keys, 384-402. *)
Definition keys (s : store) : res (list grid_key) :=
  res_mapM (fun kv => read_key kv.1) (single_records (st_db s)).

(** iter, 404-426. *)
Definition iter (s : store) : res (list (grid_key * list grid_entry)) :=
  res_mapM (fun kv =>
    let* k := read_key kv.1 in
    let* es := decode_value kv.2 in
    Ok (k, es)) (single_records (st_db s)).
