(** Model of the dump and load tools, /repo/test_utils/src/lib.rs and its two programs
    dump.rs and load.rs. A dumped record (a line of JSON, StoreEntryBuildingBlock, 40-44) is
    the pair that it is made from: writing JSON and reading it again are taken to give
    back the key and the entries. That the relevances 0.4, 0.6, 0.8 and 1 survive this
    is part of that assumption. *)
From Verif Require Import Prelude F64 Common Morton Format Builder Spatial Store.
Local Open Scope N_scope.

(** The records and the boundaries, two files. *)
Definition dump_file : Type := list (grid_key * list grid_entry) * list N.

(** dump_db_to_json, 135-154: the content of iter(), then the boundaries, which the
    store holds as a hash set, sorted. The first record that cannot be read panics. *)
Definition dump_db (o : hash_oracle) (d : gmap (list N) (list N)) : res dump_file :=
  let s := open_default d in
  match iter s with
  | Ok items => Ok (items, isort N.leb (ho o [] N (nodup N.eq_dec (st_bounds s))))
  | Diverge => Diverge
  | _ => Panic
  end.

(** load_db_from_json_reader, 113-131: a new builder on the path given, one insert per
    record, the boundaries, finish. *)
Definition load_builder (f : dump_file) : builder :=
  load_bin_boundaries (foldl (fun b (r : grid_key * list grid_entry) => insert b r.1 r.2) builder_new f.1) f.2.
Definition load_db (o : hash_oracle) (f : dump_file) (d : gmap (list N) (list N)) : res (gmap (list N) (list N)) :=
  match finish o (load_builder f) d with
  | Ok d' => Ok d'
  | Diverge => Diverge
  | _ => Panic
  end.
