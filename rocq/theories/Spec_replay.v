(** Specification vocabulary: recorded requests and what stands in the bucket for them. *)
From stdpp Require Import strings.
From Coq Require Import Strings.String Strings.Ascii Sorting.Sorted.
From Verif Require Import Prelude F64 Common Builder Spatial Store Spec Spec_match Finish_proofs Query Stackable Dump Replay.
Local Open Scope N_scope.

(** A name without dots and slashes; the path of an index of that name, in any directory. *)
Fixpoint plain (s : string) : Prop :=
  match s with EmptyString => True | String c s' => c <> "."%char /\ c <> "/"%char /\ plain s' end.
Definition names (path name : string) : Prop :=
  plain name /\ (path = (name +:+ ".gridstore.rocksdb")%string \/ exists dir, path = (dir +:+ "/" +:+ name +:+ ".gridstore.rocksdb")%string).

(** [t] is [s] with the occurrences of [pat] replaced, one after the other: the leftmost one,
    then those in what follows it. *)
Inductive replaced (pat rep : string) : string -> string -> Prop :=
| no_more s : (forall a b, s <> (a +:+ pat +:+ b)%string) -> replaced pat rep s s
| once_more a b t : (forall a' b', (a +:+ pat +:+ b = a' +:+ pat +:+ b')%string -> (String.length a <= String.length a')%nat) ->
    replaced pat rep b t -> replaced pat rep (a +:+ pat +:+ b)%string (a +:+ rep +:+ t)%string.

(** A subquery on the store of that path, and its recording. *)
Notation asked := (string * subquery)%type.
Definition recorded (x : asked) (h : placeholder) : Prop :=
  let s := sq_store x.2 in
  ph_path h = x.1 /\ ph_zoom h = st_zoom s /\ ph_type h = st_type_id s /\ ph_radius h = st_radius s /\ ph_bboxes h = st_bboxes s /\
  ph_max_score h = st_max_score s /\ ph_idx h = sq_idx x.2 /\ ph_weight h = sq_weight x.2 /\ ph_keys h = sq_keys x.2 /\
  ph_mask h = sq_mask x.2 /\ forall i, N.testbit (sq_nonoverlap x.2) i = true <-> i ∈ ph_non h.
(** The same without the boxes and the maximal score. *)
Definition partly_recorded (x : asked) (h : placeholder) : Prop :=
  let s := sq_store x.2 in
  ph_path h = x.1 /\ ph_zoom h = st_zoom s /\ ph_type h = st_type_id s /\ ph_radius h = st_radius s /\
  ph_idx h = sq_idx x.2 /\ ph_weight h = sq_weight x.2 /\ ph_keys h = sq_keys x.2 /\
  ph_mask h = sq_mask x.2 /\ forall i, N.testbit (sq_nonoverlap x.2) i = true <-> i ∈ ph_non h.
(** The lines that are not empty record the requests, in order. *)
Definition records_of {Q : Type} (rec : asked -> placeholder -> Prop) (reqs : list (list asked * Q)) (ls : list (option (list placeholder * Q))) : Prop :=
  Forall2 (fun r l => Forall2 rec r.1 l.1 /\ r.2 = l.2) reqs (omap id ls).

(** [d] was written by a builder, and the bucket has the dump of it under that name. *)
Definition dumped {R : Type} (b : bucket R) (name : string) (d : gmap (list N) (list N)) : Prop :=
  exists o o' ops f, history_ok ops /\ Forall op_nonempty ops /\ StronglySorted (fun a b => a < b) (loaded ops) /\
    finish o (run ops) ∅ = Ok d /\ dump_db o' d = Ok f /\
    bk_grids b !! (name +:+ ".gridstore.dat.lz4")%string = Some f.1 /\ bk_splits b !! (name +:+ ".gridstore.splits.lz4")%string = Some f.2.
(** The store of the subquery is one of a dumped database. *)
Definition on_dump {R : Type} (b : bucket R) (x : asked) : Prop :=
  exists name d, names x.1 name /\ dumped b name d /\
    let s := sq_store x.2 in s = open_store d (st_zoom s) (st_type_id s) (st_radius s) (st_bboxes s) (st_max_score s).
(** Every index that is there already is the right one, or none of the requests needs it. *)
Definition fit_indexes (xs : list asked) (ix : indexes) : Prop :=
  forall x name d, x ∈ xs -> names x.1 name -> ix !! (name +:+ ".gridstore.rocksdb")%string = Some d -> d = st_db (sq_store x.2).
Definition all_indexes (xs : list asked) (ix : indexes) : Prop :=
  forall x name, x ∈ xs -> names x.1 name -> ix !! (name +:+ ".gridstore.rocksdb")%string = Some (st_db (sq_store x.2)).
Definition one_store_per_path (xs : list asked) : Prop :=
  forall x y, x ∈ xs -> y ∈ xs -> x.1 = y.1 -> sq_store x.2 = sq_store y.2.
Definition all_asked {Q : Type} (reqs : list (list asked * Q)) : list asked := mjoin (map fst reqs).

(** The same with other stores. *)
Definition with_store (g : store -> store) (q : subquery) : subquery :=
  Subquery (g (sq_store q)) (sq_idx q) (sq_nonoverlap q) (sq_weight q) (sq_mask q) (sq_keys q).
Definition node_with (g : store -> store) (n : node) : node :=
  Node (with_store g <$> sn_pm n) (sn_children n) (sn_bmask n) (sn_mask n) (sn_idx n) (sn_max_relev n) (sn_zoom n).
Definition arena_with (g : store -> store) (a : arena) : arena :=
  Arena (node_with g <$> am_nodes a) (am_relev a) (am_min a) (am_leaves a) (am_soft_max a) (am_next a) (am_panicked a).
Definition tree_with (g : store -> store) (t : tree) : tree := Tree (node_with g (t_root t)) (arena_with g (t_arena t)).
