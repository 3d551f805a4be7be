(** Laziness of the iterators of /repo/rust-src/src/gridstore/store.rs. Store.v computes
    everything that [streaming_get_matching] would yield; here its result is what it is in
    the source, an iterator that is asked for one item at a time. *)
From Verif Require Import Prelude F64 Heap Common Morton Format Spatial Store.

(** What an iterator yields from call to call of next(), and how it ends: it is exhausted
    ([Ok tt]), or the call after the last item does not return an item but fails. *)
Notation trace A := (list A * res unit)%type (only parsing).
(** The failure of a computation that was to produce items. *)
Definition failed {A B} (m : res A) : trace B :=
  ([], match m with Ok _ => Ok tt | Err => Err | Panic => Panic | Diverge => Diverge end).
(** [Iterator::flat_map]: the iterator for an item is made when the previous one is
    exhausted. *)
Fixpoint tr_flat {A B} (f : A -> trace B) (l : list A) (end_ : res unit) : trace B :=
  match l with
  | [] => ([], end_)
  | a :: l' =>
      match f a with
      | (out, Ok _) => let '(out', r) := tr_flat f l' end_ in (out ++ out', r)
      | t => t
      end
  end.

(** itertools' [kmerge_by] as it is called at 174-182. Its heap holds the streams that are not
    exhausted and compares their first elements: all of them when it is made, and when an
    item was taken those that are first then, before the item is returned. The
    comparison panics on NaN; a single stream is not compared. *)
Definition compare_panics (ss : list (list scored)) : bool :=
  match List.filter nonempty ss with
  | [] | [_] => false
  | _ => existsb (fun s => match s with a :: _ => f_is_nan (sc_dist a) | [] => false end) ss
  end.
Fixpoint lz_kmerge_loop (fuel : nat) (tb : nat -> nat) (ss : list (list scored)) : trace scored :=
  match fuel with
  | O => ([], Ok tt)
  | S f =>
      let cands := List.filter (head_ok scoredist_before ss) (seq 0 (length ss)) in
      match cands !! (tb fuel mod length cands)%nat with
      | Some i =>
          match ss !! i with
          | Some (a :: s) =>
              if compare_panics (<[i := s]> ss) then ([], Panic)
              else let '(out, r) := lz_kmerge_loop f tb (<[i := s]> ss) in (a :: out, r)
          | _ => ([], Ok tt)
          end
      | None => ([], Ok tt)
      end
  end.
Definition lz_kmerge (tb : merge_tb) (ss : list (list scored)) : trace scored :=
  if compare_panics ss then ([], Panic)
  else lz_kmerge_loop (length (mjoin ss)) (tb scored ss) ss.

(** decode_matching_value, 80-215: the relevance groups are opened one after the other; the
    cells of a group are merged lazily, and the ids of a cell are read when it is reached.
    The cells of one relevance and score are decoded as a whole. *)
Definition lz_cell (value : bytes) (relev : f64) (lang : bool) (s : scored) : trace match_entry :=
  match read_fixed_vec value (sc_ids s) with
  | Ok ids => (map (mk_match relev lang s) ids, Ok tt)
  | m => failed m
  end.
Definition lz_group (p : profile) (tb : merge_tb) (value : bytes) (o : match_opts)
    (lang : bool) (radius : f64) (g : f64 * list relev_score) : trace match_entry :=
  match res_mapM (fun rs =>
    let* coords := read_uniform_vec value (rs_coords rs) in
    let* sel := select_coords p o coords in
    Ok (map (score_cell o radius (unpack_score (rs_value rs))) sel)) g.2 with
  | Ok streams => let '(cells, r) := lz_kmerge tb streams in tr_flat (lz_cell value g.1 lang) cells r
  | m => failed m
  end.
Definition lz_decode (p : profile) (tb : merge_tb) (value : bytes) (o : match_opts)
    (lang : bool) (radius : f64) : res (trace match_entry) :=
  let* root := read_root value in
  let* rss := read_var_vec value root in
  Ok (tr_flat (lz_group p tb value o lang radius)
              (eager_groupby (fun rs => unpack_relev (rs_value rs)) feqb rss) (Ok tt)).

(** The iterator that streaming_get_matching returns: the heap, and beside each of its
    elements how the iterator in it ends. *)
Definition lz_state : Type := heap queue_elem * list (res unit).

(** One record of the loop at 349-366: its first item is asked for. *)
Definition lz_record (p : profile) (mtb : merge_tb) (tb : tiebreak) (s : store) (k : match_key)
    (o : match_opts) (max_values : N) (st : lz_state) (kv : bytes * bytes) : res lz_state :=
  let* lang :=
    match matches_language k kv.1 with Ok b => Ok b | Diverge => Diverge | _ => Panic end in
  let* es := lz_decode p mtb kv.2 o lang (st_radius s) in
  let '(q, ends) := st in
  match es with
  | ([], r) => let* _ := r in Ok st
  | (e :: es', r) =>
      if max_values <=? hp_len q then
        match hp_min_idx queue_cmp tb q with
        | None => Panic
        | Some i =>
            match hp_items q !! i with
            | None => Panic
            | Some worst =>
                match queue_cmp worst (e, es') with
                | Lt => Ok (hp_replace q i (e, es'), <[i := r]> ends)
                | _ => Ok st
                end
            end
        end
      else Ok (hp_push q (e, es'), ends ++ [r])
  end.

(** streaming_get_matching, 318-382: the call. *)
Definition lz_open (p : profile) (mtb : merge_tb) (tb : tiebreak) (s : store)
    (k : match_key) (o : match_opts) (max_values : N) : res lz_state :=
  let* (st, en, marker) := fetch_range p s (mk_phrase k) in
  let range_key := MatchKey (Range st en) (mk_lang k) in
  let* recs := take_matching range_key marker
                 (db_iter_from (st_db s) (write_start marker range_key)) in
  res_foldl (lz_record p mtb tb s k o max_values) (hp_empty, []) recs.

(** next(), 368-380. *)
Definition lz_next (tb : tiebreak) (st : lz_state) : res (option match_entry * lz_state) :=
  let '(q, ends) := st in
  match hp_max_idx queue_cmp tb q with
  | None => Ok (None, st)
  | Some i =>
      match hp_items q !! i, ends !! i with
      | Some (e, e' :: rest), _ => Ok (Some e, (hp_replace q i (e', rest), ends))
      | Some (e, []), Some r => let* _ := r in Ok (Some e, (hp_remove q i, delete i ends))
      | _, _ => Ok (None, st)
      end
  end.
(** [n] calls of next(): what they return. *)
Fixpoint lz_calls (tb : tiebreak) (n : nat) (st : lz_state) : res (list (option match_entry)) :=
  match n with
  | O => Ok []
  | S n' =>
      let* (m, st') := lz_next tb st in
      let* ms := lz_calls tb n' st' in
      Ok (m :: ms)
  end.
