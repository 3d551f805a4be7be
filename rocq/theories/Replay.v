(** Model of the tools of /repo/test_utils/src/lib.rs that replay recorded requests:
    ensure_downloaded, ensure_store, prepare_phrasematches and
    prepare_stackable_phrasematches (156-363), used by /repo/benches/prod_data.rs.
    A line of JSON is the value that it is read as. The bucket is a fixed map from names to
    contents, so that the local copies of 157-180 make no difference; compression (lz4) is
    left out. What is not there panics ([unwrap]). *)
From stdpp Require Import strings.
From Coq Require Import Strings.String Strings.Ascii.
From Verif Require Import Prelude F64 Common Morton Format Builder Spatial Store Query Dump.
Local Open Scope N_scope.

(** [path.rsplit("/").next()], 250-254: what follows the last slash. *)
Fixpoint has_slash (s : string) : bool :=
  match s with EmptyString => false | String c s' => Ascii.eqb c "/"%char || has_slash s' end.
Fixpoint base_name (s : string) : string :=
  match s with EmptyString => EmptyString | String _ s' => if has_slash s then base_name s' else s end.
(** [str::replace]: all occurrences, from left to right. *)
Fixpoint replace_in (n : nat) (pat rep s : string) : string :=
  match n, s with
  | S n', String c s' =>
      if String.prefix pat s then (rep +:+ replace_in n' pat rep (String.substring (String.length pat) (String.length s) s))%string
      else String c (replace_in n' pat rep s')
  | _, _ => s
  end.
Definition replace (pat rep s : string) : string := replace_in (String.length s) pat rep s.

(** The bucket: data files (with their boundaries) and recorded requests. *)
Notation records := (list (grid_key * list grid_entry)) (only parsing).
Record bucket (R : Type) := Bucket {
  bk_grids : gmap string records;
  bk_splits : gmap string (list N);
  bk_requests : gmap string (list (option R)) }.
Arguments bk_grids {_} _. Arguments bk_splits {_} _. Arguments bk_requests {_} _. Arguments Bucket {_} _ _ _.
(** The directories below carmen_core_data/indexes. *)
Notation indexes := (gmap string (gmap (list N) (list N))) (only parsing).
Definition download {A : Type} (m : gmap string A) (name : string) : res A := match m !! name with Some a => Ok a | None => Panic end.

(** 188 and 192: names derived from the name of a data file. *)
Definition index_of (datafile : string) : string := replace ".dat.lz4" ".rocksdb" datafile.
Definition splits_of (datafile : string) : string := replace ".gridstore.dat.lz4" ".gridstore.splits.lz4" datafile.
(** ensure_store, 184-204. An index that is there is taken as it is. *)
Definition ensure_store {R : Type} (o : hash_oracle) (b : bucket R) (ix : indexes) (datafile : string) : res indexes :=
  match ix !! index_of datafile with
  | Some _ => Ok ix
  | None =>
      let* g := download (bk_grids b) datafile in
      let* sp := download (bk_splits b) (splits_of datafile) in
      let* d := load_db o (g, sp) ∅ in
      Ok (<[index_of datafile := d]> ix)
  end.

(** struct SubqueryPlaceholder, 224-232, with GridStorePlaceholder, 206-214. *)
Record placeholder := Placeholder {
  ph_path : string;
  ph_zoom : N;
  ph_type : N;
  ph_radius : f64;
  ph_bboxes : list bbox;
  ph_max_score : f64;
  ph_idx : N;
  ph_non : list N;
  ph_weight : f64;
  ph_keys : list match_key_id;
  ph_mask : N }.
(** 250-256: the data file for a path. *)
Definition datafile_of (path : string) : string := replace ".rocksdb" ".dat.lz4" (base_name path).
(** 268-273: the set of numbers as bits; a hash set is traversed in any order. *)
Definition bits_of (o : hash_oracle) (l : list N) : N := foldl N.setbit 0 (ho o [] N (nodup N.eq_dec l)).
(** 275-282. *)
Definition subquery_of (o : hash_oracle) (s : store) (h : placeholder) : subquery :=
  Subquery s (ph_idx h) (bits_of o (ph_non h)) (ph_weight h) (ph_mask h) (ph_keys h).

Section prepare.
  Context {R : Type} (o : hash_oracle) (b : bucket R).
  (** Where the data of a placeholder comes from and with which boxes and maximal score its
      store is opened; the two tools differ in this. *)
  Context (file : placeholder -> string) (boxes : placeholder -> res (list bbox)) (score : placeholder -> f64).
  (** 247-267 and 320-339: one store per path, opened when the path first occurs. *)
  Definition store_for (st : gmap string store * indexes) (h : placeholder) : res (store * (gmap string store * indexes)) :=
    match st.1 !! ph_path h with
    | Some s => Ok (s, st)
    | None =>
        let* ix := ensure_store o b st.2 (file h) in
        let* bb := boxes h in
        match ix !! index_of (file h) with
        | Some d =>
            let s := open_store d (ph_zoom h) (ph_type h) (ph_radius h) bb (score h) in
            Ok (s, (<[ph_path h := s]> st.1, ix))
        | None => Panic
        end
    end.
  Fixpoint stack_for (st : gmap string store * indexes) (hs : list placeholder)
    : res (list subquery * (gmap string store * indexes)) :=
    match hs with
    | [] => Ok ([], st)
    | h :: hs' =>
        let* r := store_for st h in
        let* r' := stack_for r.2 hs' in
        Ok (subquery_of o r.1 h :: r'.1, r'.2)
    end.
  (** The lines of a file: empty ones are passed over. *)
  Fixpoint prepare_lines {Q : Type} (st : gmap string store * indexes) (ls : list (option (list placeholder * Q)))
    : res (list (list subquery * Q) * (gmap string store * indexes)) :=
    match ls with
    | [] => Ok ([], st)
    | None :: ls' => prepare_lines st ls'
    | Some (hs, q) :: ls' =>
        let* r := stack_for st hs in
        let* r' := prepare_lines r.2 ls' in
        Ok ((r.1, q) :: r'.1, r'.2)
    end.
End prepare.

Notation request := (list placeholder * match_opts)%type.
(** prepare_phrasematches, 234-298: the requests, and the indexes as it leaves them. *)
Definition prepare_phrasematches (o : hash_oracle) (b : bucket request) (ix : indexes) (name : string)
  : res (list (list subquery * match_opts) * indexes) :=
  let* ls := download (bk_requests b) name in
  let* r := prepare_lines o b (fun h => datafile_of (ph_path h)) (fun h => Ok (ph_bboxes h)) ph_max_score (∅, ix) ls in
  Ok (r.1, r.2.2).
(** prepare_stackable_phrasematches, 300-363: all on the data of one index, without the boxes
    and maximal scores, which the recording does not have (216-222). *)
Definition one_datafile : string := "aa-country-both_wvus-fa5c865008-e06f993377.gridstore.dat.lz4".
Definition prepare_stackable_phrasematches (p : profile) (o : hash_oracle) (b : bucket request) (ix : indexes) (name : string)
  : res (list (list subquery) * indexes) :=
  let* ls := download (bk_requests b) name in
  let* r := prepare_lines o b (fun _ => one_datafile) (fun h => global_bbox_for_zoom p (ph_zoom h)) (fun _ => f_one) (∅, ix) ls in
  Ok (map fst r.1, r.2.2).
