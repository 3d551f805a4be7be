(** Conformance tests of the model: assertions of the repository's own unit tests,
    evaluated on the model. These are tests, not proofs. *)
From Verif Require Import Prelude F64 Heap Common Morton Format Builder Spatial Store.

(** An oracle that keeps the order of [map_to_list], and one that reverses it. *)
Definition ho_id : hash_oracle := HashOracle (fun _ _ l => l) (fun _ _ _ => reflexivity _).
Definition tb0 : tiebreak := fun _ _ => O.
Definition mtb0 : merge_tb := fun _ _ _ => O.

(** mod.rs 169-203: data of matching_test. *)
Definition mt_entries (i : N) : list grid_entry :=
  [ GridEntry f_one 1 (2 * i) 1 i 0;
    GridEntry f_one 7 (2 * i + 1) 1 (i + 1) 0;
    GridEntry f_one 7 (2 * i + 2) 1 (i + 2) 0;
    GridEntry f_one 7 (2 * i + 1) 1 (i + 3) 0 ].
Definition mt_builder : builder :=
  foldl (fun b ki => insert b ki.1 (mt_entries ki.2)) builder_new
    [ ((1, 1), 0); ((1, 1), 4); ((1, 2), 8); ((1, 2), 12);
      ((2, 1), 16); ((2, 1), 20); ((1, 1), 24); ((1, 1), 28) ].
Definition mt_store : store :=
  match finish ho_id mt_builder ∅ with
  | Ok d => open_store d 14 0 (f_of_N 1000) [BBox 0 0 16383 16383] f_one
  | _ => open_default ∅
  end.
Definition query ph lang bb prox : res (list match_entry) :=
  streaming_get_matching Debug mtb0 tb0 mt_store (MatchKey ph lang)
    (MatchOpts bb prox 16) 40.

Example matching_test_1 :
  query (Range 1 2) 1 (None) (None)
  = Ok
  [ MatchEntry (GridEntry (f_of_N 1) 7 58 1 30 0) true (f_zero) (f_of_N 7);
    MatchEntry (GridEntry (f_of_N 1) 7 57 1 31 0) true (f_zero) (f_of_N 7);
    MatchEntry (GridEntry (f_of_N 1) 7 57 1 29 0) true (f_zero) (f_of_N 7);
    MatchEntry (GridEntry (f_of_N 1) 1 56 1 28 0) true (f_zero) (f_of_N 1);
    MatchEntry (GridEntry (f_lit 96 100) 7 26 1 14 0) false (f_zero) (f_of_N 7);
    MatchEntry (GridEntry (f_lit 96 100) 7 25 1 15 0) false (f_zero) (f_of_N 7);
    MatchEntry (GridEntry (f_lit 96 100) 7 25 1 13 0) false (f_zero) (f_of_N 7);
    MatchEntry (GridEntry (f_lit 96 100) 1 24 1 12 0) false (f_zero) (f_of_N 1) ].
Proof. vm_compute. reflexivity. Qed.
Example matching_test_2 :
  query (Range 1 3) 1 (None) (None)
  = Ok
  [ MatchEntry (GridEntry (f_of_N 1) 7 58 1 30 0) true (f_zero) (f_of_N 7);
    MatchEntry (GridEntry (f_of_N 1) 7 57 1 31 0) true (f_zero) (f_of_N 7);
    MatchEntry (GridEntry (f_of_N 1) 7 57 1 29 0) true (f_zero) (f_of_N 7);
    MatchEntry (GridEntry (f_of_N 1) 7 42 1 22 0) true (f_zero) (f_of_N 7);
    MatchEntry (GridEntry (f_of_N 1) 7 41 1 23 0) true (f_zero) (f_of_N 7);
    MatchEntry (GridEntry (f_of_N 1) 7 41 1 21 0) true (f_zero) (f_of_N 7);
    MatchEntry (GridEntry (f_of_N 1) 1 56 1 28 0) true (f_zero) (f_of_N 1);
    MatchEntry (GridEntry (f_of_N 1) 1 40 1 20 0) true (f_zero) (f_of_N 1);
    MatchEntry (GridEntry (f_lit 96 100) 7 26 1 14 0) false (f_zero) (f_of_N 7);
    MatchEntry (GridEntry (f_lit 96 100) 7 25 1 15 0) false (f_zero) (f_of_N 7);
    MatchEntry (GridEntry (f_lit 96 100) 7 25 1 13 0) false (f_zero) (f_of_N 7);
    MatchEntry (GridEntry (f_lit 96 100) 1 24 1 12 0) false (f_zero) (f_of_N 1) ].
Proof. vm_compute. reflexivity. Qed.
Example matching_test_3 :
  query (Range 1 3) 0 (None) (None)
  = Ok
  [ MatchEntry (GridEntry (f_lit 96 100) 7 58 1 30 0) false (f_zero) (f_of_N 7);
    MatchEntry (GridEntry (f_lit 96 100) 7 57 1 31 0) false (f_zero) (f_of_N 7);
    MatchEntry (GridEntry (f_lit 96 100) 7 57 1 29 0) false (f_zero) (f_of_N 7);
    MatchEntry (GridEntry (f_lit 96 100) 7 42 1 22 0) false (f_zero) (f_of_N 7);
    MatchEntry (GridEntry (f_lit 96 100) 7 41 1 23 0) false (f_zero) (f_of_N 7);
    MatchEntry (GridEntry (f_lit 96 100) 7 41 1 21 0) false (f_zero) (f_of_N 7);
    MatchEntry (GridEntry (f_lit 96 100) 7 26 1 14 0) false (f_zero) (f_of_N 7);
    MatchEntry (GridEntry (f_lit 96 100) 7 25 1 15 0) false (f_zero) (f_of_N 7);
    MatchEntry (GridEntry (f_lit 96 100) 7 25 1 13 0) false (f_zero) (f_of_N 7);
    MatchEntry (GridEntry (f_lit 96 100) 1 56 1 28 0) false (f_zero) (f_of_N 1);
    MatchEntry (GridEntry (f_lit 96 100) 1 40 1 20 0) false (f_zero) (f_of_N 1);
    MatchEntry (GridEntry (f_lit 96 100) 1 24 1 12 0) false (f_zero) (f_of_N 1) ].
Proof. vm_compute. reflexivity. Qed.
Example matching_test_4 :
  query (Range 1 3) 2 (None) (None)
  = Ok
  [ MatchEntry (GridEntry (f_of_N 1) 7 26 1 14 0) true (f_zero) (f_of_N 7);
    MatchEntry (GridEntry (f_of_N 1) 7 25 1 15 0) true (f_zero) (f_of_N 7);
    MatchEntry (GridEntry (f_of_N 1) 7 25 1 13 0) true (f_zero) (f_of_N 7);
    MatchEntry (GridEntry (f_of_N 1) 1 24 1 12 0) true (f_zero) (f_of_N 1);
    MatchEntry (GridEntry (f_lit 96 100) 7 58 1 30 0) false (f_zero) (f_of_N 7);
    MatchEntry (GridEntry (f_lit 96 100) 7 57 1 31 0) false (f_zero) (f_of_N 7);
    MatchEntry (GridEntry (f_lit 96 100) 7 57 1 29 0) false (f_zero) (f_of_N 7);
    MatchEntry (GridEntry (f_lit 96 100) 7 42 1 22 0) false (f_zero) (f_of_N 7);
    MatchEntry (GridEntry (f_lit 96 100) 7 41 1 23 0) false (f_zero) (f_of_N 7);
    MatchEntry (GridEntry (f_lit 96 100) 7 41 1 21 0) false (f_zero) (f_of_N 7);
    MatchEntry (GridEntry (f_lit 96 100) 1 56 1 28 0) false (f_zero) (f_of_N 1);
    MatchEntry (GridEntry (f_lit 96 100) 1 40 1 20 0) false (f_zero) (f_of_N 1) ].
Proof. vm_compute. reflexivity. Qed.
Example matching_test_5 :
  query (Range 1 3) 3 (None) (None)
  = Ok
  [ MatchEntry (GridEntry (f_of_N 1) 7 58 1 30 0) true (f_zero) (f_of_N 7);
    MatchEntry (GridEntry (f_of_N 1) 7 57 1 31 0) true (f_zero) (f_of_N 7);
    MatchEntry (GridEntry (f_of_N 1) 7 57 1 29 0) true (f_zero) (f_of_N 7);
    MatchEntry (GridEntry (f_of_N 1) 7 42 1 22 0) true (f_zero) (f_of_N 7);
    MatchEntry (GridEntry (f_of_N 1) 7 41 1 23 0) true (f_zero) (f_of_N 7);
    MatchEntry (GridEntry (f_of_N 1) 7 41 1 21 0) true (f_zero) (f_of_N 7);
    MatchEntry (GridEntry (f_of_N 1) 7 26 1 14 0) true (f_zero) (f_of_N 7);
    MatchEntry (GridEntry (f_of_N 1) 7 25 1 15 0) true (f_zero) (f_of_N 7);
    MatchEntry (GridEntry (f_of_N 1) 7 25 1 13 0) true (f_zero) (f_of_N 7);
    MatchEntry (GridEntry (f_of_N 1) 1 56 1 28 0) true (f_zero) (f_of_N 1);
    MatchEntry (GridEntry (f_of_N 1) 1 40 1 20 0) true (f_zero) (f_of_N 1);
    MatchEntry (GridEntry (f_of_N 1) 1 24 1 12 0) true (f_zero) (f_of_N 1) ].
Proof. vm_compute. reflexivity. Qed.
Example matching_test_bbox :
  query (Range 1 3) 1 (Some (BBox 26 0 41 2)) (None)
  = Ok
  [ MatchEntry (GridEntry (f_of_N 1) 7 41 1 23 0) true (f_zero) (f_of_N 7);
    MatchEntry (GridEntry (f_of_N 1) 7 41 1 21 0) true (f_zero) (f_of_N 7);
    MatchEntry (GridEntry (f_of_N 1) 1 40 1 20 0) true (f_zero) (f_of_N 1);
    MatchEntry (GridEntry (f_lit 96 100) 7 26 1 14 0) false (f_zero) (f_of_N 7) ].
Proof. vm_compute. reflexivity. Qed.
Example matching_test_bbox_below :
  query (Range 1 3) 1 (Some (BBox 0 2 100 2)) (None)
  = Ok
  [  ].
Proof. vm_compute. reflexivity. Qed.
Example matching_test_bbox_outside :
  query (Range 1 3) 1 (Some (BBox 100 100 100 100)) (None)
  = Ok
  [  ].
Proof. vm_compute. reflexivity. Qed.
Example matching_test_prox :
  query (Range 1 3) 2 (None) (Some (26, 1))
  = Ok
  [ MatchEntry (GridEntry (f_of_N 1) 7 26 1 14 0) true (f_zero) (f_lit 15750000000000002 1000000000000);
    MatchEntry (GridEntry (f_of_N 1) 7 25 1 15 0) true (f_of_N 1) (f_lit 12600000000000002 1000000000000);
    MatchEntry (GridEntry (f_of_N 1) 7 25 1 13 0) true (f_of_N 1) (f_lit 12600000000000002 1000000000000);
    MatchEntry (GridEntry (f_of_N 1) 1 24 1 12 0) true (f_of_N 2) (f_lit 9133852617539986 10000000000000);
    MatchEntry (GridEntry (f_of_N 1) 7 41 1 23 0) false (f_of_N 15) (f_lit 8400000000000002 10000000000000);
    MatchEntry (GridEntry (f_of_N 1) 7 41 1 21 0) false (f_of_N 15) (f_lit 8400000000000002 10000000000000);
    MatchEntry (GridEntry (f_of_N 1) 7 42 1 22 0) false (f_of_N 16) (f_lit 7875000000000001 10000000000000);
    MatchEntry (GridEntry (f_of_N 1) 7 57 1 31 0) false (f_of_N 31) (f_lit 4064516129032259 10000000000000);
    MatchEntry (GridEntry (f_of_N 1) 7 57 1 29 0) false (f_of_N 31) (f_lit 4064516129032259 10000000000000);
    MatchEntry (GridEntry (f_of_N 1) 7 58 1 30 0) false (f_of_N 32) (f_lit 39375000000000006 100000000000000);
    MatchEntry (GridEntry (f_of_N 1) 1 40 1 20 0) false (f_of_N 14) (f_lit 13048360882199978 100000000000000);
    MatchEntry (GridEntry (f_of_N 1) 1 56 1 28 0) false (f_of_N 30) (f_lit 6089235078359991 100000000000000) ].
Proof. vm_compute. reflexivity. Qed.
Example matching_test_bbox_prox :
  query (Range 1 3) 2 (Some (BBox 10 0 41 2)) (Some (26, 1))
  = Ok
  [ MatchEntry (GridEntry (f_of_N 1) 7 26 1 14 0) true (f_zero) (f_lit 15750000000000002 1000000000000);
    MatchEntry (GridEntry (f_of_N 1) 7 25 1 15 0) true (f_of_N 1) (f_lit 12600000000000002 1000000000000);
    MatchEntry (GridEntry (f_of_N 1) 7 25 1 13 0) true (f_of_N 1) (f_lit 12600000000000002 1000000000000);
    MatchEntry (GridEntry (f_of_N 1) 1 24 1 12 0) true (f_of_N 2) (f_lit 9133852617539986 10000000000000);
    MatchEntry (GridEntry (f_of_N 1) 7 41 1 23 0) false (f_of_N 15) (f_lit 8400000000000002 10000000000000);
    MatchEntry (GridEntry (f_of_N 1) 7 41 1 21 0) false (f_of_N 15) (f_lit 8400000000000002 10000000000000);
    MatchEntry (GridEntry (f_of_N 1) 1 40 1 20 0) false (f_of_N 14) (f_lit 13048360882199978 100000000000000) ].
Proof. vm_compute. reflexivity. Qed.
Example matching_test_keys : keys mt_store = Ok [(1, 1); (1, 2); (2, 1)].
Proof. vm_compute. reflexivity. Qed.

(** spatial.rs 465-483, 522-534, 546-563, 638-642. *)
Example tile_dist_tests :
  tile_dist 1 1 1 1 = f_zero /\ tile_dist 1 1 1 0 = f_one /\
  tile_dist 1 1 0 0 = f_lit 14142135623730951 10000000000000000.
Proof. vm_compute. repeat split; reflexivity. Qed.
Example proximity_radius_tests :
  proximity_radius 14 (f_of_N 400) = f_of_N 320 /\
  proximity_radius 16 (f_of_N 400) = f_lit 7200000000000001 10000000000000 /\
  proximity_radius 6 f_zero = f_zero /\
  proximity_radius 6 (f_of_N 40) = f_lit 12485901539399482 10000000000000000 /\
  proximity_radius 17 (f_of_N 400) = f_of_N 1080.
Proof. vm_compute. repeat split; reflexivity. Qed.
Example scoredist_tests :
  scoredist 14 f_one 0 (f_of_N 400) = f_lit 3217508133738646 10000000000000 /\
  scoredist 14 f_zero 0 (f_of_N 400) = f_lit 4021885167173308 10000000000000.
Proof. vm_compute. repeat split; reflexivity. Qed.

(** common.rs 200-361. *)
Definition at_zoom bb prox z t := adjust_to_zoom Debug (MatchOpts bb prox z) t.
Example adjust_tests :
  at_zoom None (Some (2, 28)) 14 6 = Ok (MatchOpts None (Some (0, 0)) 6) /\
  at_zoom None (Some (11, 25)) 6 8 = Ok (MatchOpts None (Some (45, 101)) 8) /\
  at_zoom None (Some (6, 6)) 4 7 = Ok (MatchOpts None (Some (51, 51)) 7) /\
  at_zoom (Some (BBox 32760 32758 32767 32714)) None 15 16
    = Ok (MatchOpts (Some (BBox 65520 65516 65535 65429)) None 16) /\
  at_zoom (Some (BBox 6 5 7 6)) None 4 3 = Ok (MatchOpts (Some (BBox 3 2 3 3)) None 3) /\
  at_zoom (Some (BBox 5 3 7 4)) None 3 5 = Ok (MatchOpts (Some (BBox 20 12 31 19)) None 5).
Proof. vm_compute. repeat split; reflexivity. Qed.
Definition nearby bb prox z := with_nearby_only Debug (MatchOpts bb prox z).
Example nearby_tests :
  nearby None (Some (100, 100)) 14 = Ok (MatchOpts (Some (BBox 83 83 117 117)) (Some (100, 100)) 14) /\
  nearby None (Some (100, 100)) 6 = Ok (MatchOpts (Some (BBox 99 99 101 101)) (Some (100, 100)) 6) /\
  nearby None (Some (5, 5)) 14 = Ok (MatchOpts (Some (BBox 0 0 22 22)) (Some (5, 5)) 14) /\
  nearby (Some (BBox 90 70 115 180)) (Some (100, 100)) 14
    = Ok (MatchOpts (Some (BBox 90 83 115 117)) (Some (100, 100)) 14).
Proof. vm_compute. repeat split; reflexivity. Qed.
