(** Model of /repo/rust-src/src/gridstore/builder.rs and of the part of RocksDB
    it uses: [put] into an ordered map of byte strings. *)
From Verif Require Import Prelude F64 Common Morton Format.

(** BuilderEntry, 14: relev/score byte -> Z-order cell -> packed ids. *)
Notation builder_entry := (gmap N (gmap N (list N))) (only parsing).

(** struct GridStoreBuilder, 16-20. The path is kept outside of the record. *)
Record builder := Builder {
  b_data : gmap (N * N) (gmap N (gmap N (list N)));
  b_bounds : list N }.

(** Iteration order of a [HashMap] (and any other unspecified order): some
    permutation, depending on the place in the program ([site]) and on the
    content. *)
Record hash_oracle := HashOracle {
  ho : list N -> forall A : Type, list A -> list A;
  ho_perm : forall site A (l : list A), ho site A l ≡ₚ l }.

Definition hash_iter {K V} `{Countable K} (o : hash_oracle) (site : list N) (m : gmap K V)
  : list (K * V) :=
  ho o site (K * V) (map_to_list m).

(** The packed relevance/score byte, 25 and 136: [u8] shift and or, unmasked. *)
Definition pack_rs (relev : f64) (score : N) : N :=
  N.lor (as_u8 (N.shiftl (relev_float_to_int relev) 4)) score.
(** The packed id, 33 and 137: [u32] shift, upper 8 bits of the id are lost. *)
Definition pack_id (id hash : N) : N := N.lor (as_u32 (N.shiftl id 8)) hash.

(** Insert-or-extend of the id list of a cell, 34-41. *)
Definition extend_cell (ids : list N) (cell : option (list N)) : option (list N) :=
  match cell with
  | None => Some ids
  | Some old => Some (old ++ ids)
  end.
Definition extend_cells (cells : gmap N (list N)) (g : N * list grid_entry) : gmap N (list N) :=
  partial_alter
    (extend_cell (map (fun v => pack_id (ge_id v) (ge_hash v)) g.2)) g.1 cells.

(** extend_entries, 23-44. *)
Definition extend_group (be : builder_entry) (g : N * list grid_entry) : builder_entry :=
  partial_alter
    (fun old =>
       Some (foldl extend_cells (default ∅ old)
                   (group_consec (fun v => interleave (ge_x v) (ge_y v)) N.eqb g.2)))
    g.1 be.
Definition extend_entries (be : builder_entry) (values : list grid_entry) : builder_entry :=
  foldl extend_group be
        (eager_groupby (fun v => pack_rs (ge_relev v) (ge_score v)) N.eqb values).

(** copy_entries, 46-54: [or_insert_with] creates the entry even when nothing is
    added to it. *)
Definition copy_cells (o : hash_oracle) (site : list N)
    (dst : gmap N (list N)) (src : gmap N (list N)) : gmap N (list N) :=
  foldl (fun d (zv : N * list N) =>
           partial_alter (fun old => Some (default [] old ++ zv.2)) zv.1 d)
        dst (hash_iter o site src).
Definition copy_entries (o : hash_oracle) (site : list N)
    (src dst : builder_entry) : builder_entry :=
  foldl (fun d (rv : N * gmap N (list N)) =>
           partial_alter (fun old => Some (copy_cells o (rv.1 :: site) (default ∅ old) rv.2)) rv.1 d)
        dst (hash_iter o site src).

(** Descending order on the first component, 60-62 and 70. *)
Definition desc_key {V} (a b : N * V) : bool := b.1 <=? a.1.
(** 76-77: reverse sort and dedup of the packed ids. *)
Definition sort_ids (ids : list N) : list N :=
  dedup N.eqb (isort (fun a b => b <=? a) ids).

(** get_encoded_value, 56-97. The state of the loops is the writer's buffer and
    the table of id lists already written. *)
Definition id_table := gmap (list N) N.
Definition encode_cell (st : bytes * id_table * list coord) (c : N * list N)
  : bytes * id_table * list coord :=
  let '(w, tbl, coords) := st in
  let ids := sort_ids c.2 in
  match tbl !! ids with
  | Some off => (w, tbl, coords ++ [Coord c.1 off])
  | None =>
      let '(off, w') := write_fixed_vec w ids in
      (w', <[ids := off]> tbl, coords ++ [Coord c.1 off])
  end.
Definition encode_group (o : hash_oracle) (site : list N)
    (st : bytes * id_table * list relev_score) (g : N * gmap N (list N))
  : bytes * id_table * list relev_score :=
  let '(w, tbl, rss) := st in
  let inner := isort desc_key (hash_iter o (g.1 :: site) g.2) in
  let '(w1, tbl1, coords) := foldl encode_cell (w, tbl, []) inner in
  let '(off, w2) := write_uniform_vec w1 coords in
  (w2, tbl1, rss ++ [RelevScore g.1 off]).
Definition get_encoded_value (o : hash_oracle) (site : list N) (value : builder_entry) : bytes :=
  let items := isort desc_key (hash_iter o site value) in
  let '(w, _, rss) := foldl (encode_group o site) ([], ∅, []) items in
  let '(addr, w1) := write_var_vec w rss in
  write_root w1 addr.

(** GridStoreBuilder::new, 101-107. *)
Definition builder_new : builder := Builder ∅ [].

(** insert, 110-115. *)
Definition insert (b : builder) (key : grid_key) (values : list grid_entry) : builder :=
  Builder (<[key := extend_entries ∅ values]> (b_data b)) (b_bounds b).

(** append, 118-122. *)
Definition append (b : builder) (key : grid_key) (values : list grid_entry) : builder :=
  Builder (<[key := extend_entries (default ∅ (b_data b !! key)) values]> (b_data b))
          (b_bounds b).

(** compact_append, 124-151. *)
Definition compact_append (b : builder) (key : grid_key) (relev : f64) (score id hash : N)
    (coords : list (N * N)) : builder :=
  let e := default ∅ (b_data b !! key) in
  let rs := pack_rs relev score in
  let cells := foldl (fun cells (xy : N * N) =>
                        partial_alter (extend_cell [pack_id id hash])
                                      (interleave xy.1 xy.2) cells)
                     (default ∅ (e !! rs)) coords in
  Builder (<[key := <[rs := cells]> e]> (b_data b)) (b_bounds b).

(** BTreeMap iteration: ascending key order. *)
Definition key_leb (a b : grid_key) : bool :=
  match grid_key_cmp a b with Gt => false | _ => true end.
Definition btree_iter {V} (m : gmap (N * N) V) : list ((N * N) * V) :=
  isort (fun a b => key_leb a.1 b.1) (map_to_list m).

(** renumber, 155-176. Returns the outcome together with the state in which the
    builder is left: on an error the entries not yet moved are lost. *)
Fixpoint renumber_loop (ids : list N) (old : list ((N * N) * builder_entry))
    (data : gmap (N * N) builder_entry) : res unit * gmap (N * N) builder_entry :=
  match old with
  | [] => (Ok tt, data)
  | (key, value) :: old' =>
      match ids !! N.to_nat (gk_phrase key) with
      | None => (Err, data)
      | Some new_id =>
          match data !! (new_id, gk_lang key) with
          | Some _ => (Err, data)
          | None => renumber_loop ids old' (<[(new_id, gk_lang key) := value]> data)
          end
      end
  end.
Definition renumber (b : builder) (ids : list N) : res unit * builder :=
  let '(r, data) := renumber_loop ids (btree_iter (b_data b)) ∅ in
  (r, Builder data (b_bounds b)).

(** load_bin_boundaries, 178-181. *)
Definition load_bin_boundaries (b : builder) (bounds : list N) : builder :=
  Builder (b_data b) bounds.

(** The bin closure of finish, 192-202. [bin_seq] is the peekable iterator. *)
Record bin_state := BinState { bs_seq : list N; bs_current : option N; bs_next : N }.
Definition bin_init (bounds : list N) : bin_state := BinState bounds None 0.
(** One iteration of the [while] body, 197-198. *)
Definition bin_step (s : bin_state) : bin_state :=
  let seq' := tail (bs_seq s) in
  BinState seq' (head (bs_seq s)) (default u32_max (head seq')).
(** The [while] loop, 196-199; [None] when the fuel runs out. *)
Fixpoint bin_advance (fuel : nat) (phrase : N) (s : bin_state) : option bin_state :=
  if bs_next s <=? phrase then
    match fuel with
    | O => None
    | S f => bin_advance f phrase (bin_step s)
    end
  else Some s.
(** After [length bs_seq + 1] iterations the state no longer changes, so running
    out of this much fuel means that the loop never ends (see
    [bin_advance_fuel]). *)
Definition bin_fuel (s : bin_state) : nat := S (S (length (bs_seq s))).
(** The closure applied to the items in order: each item with its bin. *)
Fixpoint bin_label {V} (items : list ((N * N) * V)) (s : bin_state)
  : res (list (option N * ((N * N) * V))) :=
  match items with
  | [] => Ok []
  | it :: items' =>
      match bin_advance (bin_fuel s) (gk_phrase it.1) s with
      | None => Diverge
      | Some s' =>
          let* rest := bin_label items' s' in
          Ok ((bs_current s', it) :: rest)
      end
  end.

Definition option_N_eqb (a b : option N) : bool :=
  match a, b with
  | None, None => true
  | Some x, Some y => x =? y
  | _, _ => false
  end.

(** A database write. *)
Notation db_put := (bytes * bytes)%type (only parsing).

(** The body of the loop over groups, 204-228: first the single-phrase records of
    the group while merging them per language set, then the bin records. *)
Definition group_item (o : hash_oracle) (st : list db_put * gmap N builder_entry)
    (it : (N * N) * builder_entry) : list db_put * gmap N builder_entry :=
  let '(puts, langs) := st in
  let '(key, value) := it in
  let db_key := write_key SinglePhrase key in
  let merged := copy_entries o (0 :: db_key) value (default ∅ (langs !! gk_lang key)) in
  (puts ++ [(db_key, get_encoded_value o (1 :: db_key) value)],
   <[gk_lang key := merged]> langs).
Definition group_puts (o : hash_oracle) (g : option N * list (option N * ((N * N) * builder_entry)))
  : list db_put :=
  let '(puts, langs) := foldl (group_item o) ([], ∅) (map snd g.2) in
  puts ++
  match g.1 with
  | None => []
  | Some group_id =>
      map (fun lv : N * builder_entry =>
             let db_key := write_key PrefixBin (group_id, lv.1) in
             (db_key, get_encoded_value o (1 :: db_key) lv.2))
          (hash_iter o [2; group_id] langs)
  end.

(** "~BOUNDS", 235. *)
Definition bounds_key : bytes := [126; 66; 79; 85; 78; 68; 83].

(** finish, 184-240: the sequence of database writes it performs, in order. *)
Definition finish_puts (o : hash_oracle) (b : builder) : res (list db_put) :=
  let* labelled := bin_label (btree_iter (b_data b)) (bin_init (b_bounds b)) in
  let groups := eager_groupby fst option_N_eqb labelled in
  Ok (mjoin (map (group_puts o) groups) ++
      [(bounds_key, mjoin (map (le_bytes 4) (b_bounds b)))]).

(** RocksDB: a map of byte strings; [put] replaces. *)
Notation db := (gmap (list N) (list N)) (only parsing).
Definition apply_puts (puts : list db_put) (d : db) : db :=
  foldl (fun d (kv : db_put) => <[kv.1 := kv.2]> d) d puts.
Definition finish (o : hash_oracle) (b : builder) (d : db) : res db :=
  let* puts := finish_puts o b in Ok (apply_puts puts d).
