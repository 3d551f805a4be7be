(** Conformance tests of the coalesce model: assertions of
    /repo/tests/coalesce_test.rs, evaluated on the model. These are tests, not
    proofs. *)
From Verif Require Import Prelude F64 Heap Common Builder Spatial Store Query Coalesce Stackable Tree.
From Verif Require Import Tests.

(** test_utils create_store. *)
Definition mk_store (data : list (grid_key * list grid_entry)) (zoom type_id : N) (radius : f64) : store :=
  match finish ho_id (foldl (fun b ke => insert b ke.1 ke.2) builder_new data) ∅,
        global_bbox_for_zoom Debug zoom with
  | Ok d, Ok boxes => open_store d zoom type_id radius boxes f_one
  | _, _ => open_default ∅
  end.
Definition key0 (id : N) (s e lang : N) : match_key_id :=
  MatchKeyWithId (MatchKey (Range s e) lang) false id 0.
Definition co (stack : list subquery) (o : match_opts) := coalesce Debug ho_id mtb0 tb0 stack o.
Definition tco (stack : list subquery) (o : match_opts) :=
  let t := stackable stack in tree_coalesce Debug ho_id mtb0 tb0 (tree_fuel t) t o.

Definition ids (r : res (list coalesce_context)) : list N :=
  match r with
  | Ok cs => mjoin (map (fun c => match cc_entries c with
                                  | e :: _ => [ge_id (ce_entry e)] | [] => [] end) cs)
  | _ => [999]
  end.

(** coalesce_single_test_proximity_quadrants, 9-110. *)
Definition quad : subquery :=
  Subquery (mk_store [((1, 1), [GridEntry f_one 1 200 200 1 0; GridEntry f_one 1 200 0 2 0;
                               GridEntry f_one 1 0 0 3 0; GridEntry f_one 1 0 200 4 0])]
                     14 1 (f_of_N 200)) 1 0 f_one 1 [key0 0 1 3 1].
Example quad_ne : ids (co [quad] (MatchOpts None (Some (110, 115)) 14)) = [1; 4; 2; 3].
Proof. vm_compute. reflexivity. Qed.
Example quad_se : ids (co [quad] (MatchOpts None (Some (110, 85)) 14)) = [2; 3; 1; 4].
Proof. vm_compute. reflexivity. Qed.
Example quad_sw : ids (co [quad] (MatchOpts None (Some (90, 85)) 14)) = [3; 2; 4; 1].
Proof. vm_compute. reflexivity. Qed.
Example quad_nw : ids (co [quad] (MatchOpts None (Some (90, 115)) 14)) = [4; 1; 3; 2].
Proof. vm_compute. reflexivity. Qed.
Example quad_tree : ids (tco [quad] (MatchOpts None (Some (90, 115)) 14)) = [4; 1; 3; 2].
Proof. vm_compute. reflexivity. Qed.

(** coalesce_multi_test_language_penalty, 227-300. *)
Definition f_05 : f64 := f_lit 5 10.
Definition lp1 : subquery :=
  Subquery (mk_store [((1, 1), [GridEntry f_one 1 2 2 1 0; GridEntry f_one 1 12800 12800 2 0])]
                     14 1 (f_of_N 200)) 1 0 f_05 1 [key0 0 1 3 2].
Definition lp2 : subquery :=
  Subquery (mk_store [((2, 1), [GridEntry f_one 1 0 0 3 0; GridEntry f_one 1 50 50 4 0])]
                     6 0 (f_of_N 200)) 2 0 f_05 2 [key0 1 1 3 2].
Definition relevs (r : res (list coalesce_context)) : list (f64 * list f64) :=
  match r with
  | Ok cs => map (fun c => (cc_relev c, map (fun e => ge_relev (ce_entry e)) (cc_entries c))) cs
  | _ => []
  end.
Example lang_penalty_prox :
  relevs (co [lp1; lp2] (MatchOpts None (Some (2, 2)) 14))
  = [(f_one, [f_05; f_05]); (f_lit 96 100, [f_lit 48 100; f_lit 48 100])].
Proof. vm_compute. reflexivity. Qed.
Example lang_penalty :
  take 1 (relevs (co [lp1; lp2] (MatchOpts None None 14)))
  = [(f_lit 96 100, [f_lit 48 100; f_lit 48 100])].
Proof. vm_compute. reflexivity. Qed.

(** coalesce_multi_test, 774-1000. *)
Definition cm1 : subquery :=
  Subquery (mk_store [((1, 1), [GridEntry f_one 1 1 1 1 0; GridEntry f_one 1 2 2 2 0])]
                     1 0 (f_of_N 40)) 0 0 f_05 2 [key0 0 1 3 1].
Definition cm2 : subquery :=
  Subquery (mk_store [((2, 1), [GridEntry f_one 3 1 1 1 0; GridEntry f_one 3 2 2 2 0;
                               GridEntry f_one 1 3 3 3 0])]
                     2 1 (f_of_N 40)) 1 0 f_05 1 [key0 1 1 3 1].
Example multi_flat :
  match co [cm1; cm2] (MatchOpts None None 6) with Ok l => Ok (take 2 l) | r => r end
  = Ok [CoalesceContext 3 f_one
          [CoalesceEntry (GridEntry f_05 3 2 2 2 0) true 1 33554434 1 f_zero (f_of_N 3) 0;
           CoalesceEntry (GridEntry f_05 1 1 1 1 0) true 0 1 2 f_zero f_one 0];
        CoalesceContext 3 f_one
          [CoalesceEntry (GridEntry f_05 1 3 3 3 0) true 1 33554435 1 f_zero f_one 0;
           CoalesceEntry (GridEntry f_05 1 1 1 1 0) true 0 1 2 f_zero f_one 0]].
Proof. vm_compute. reflexivity. Qed.
Example multi_prox :
  match co [cm1; cm2] (MatchOpts None (Some (3, 3)) 2) with Ok l => Ok (take 2 l) | r => r end
  = Ok [CoalesceContext 3 f_one
          [CoalesceEntry (GridEntry f_05 1 3 3 3 0) true 1 33554435 1 f_zero
             (f_lit 15839497841387566 10000000000000000) 0;
           CoalesceEntry (GridEntry f_05 1 1 1 1 0) true 0 1 2 f_zero
             (f_lit 15839497841387566 10000000000000000) 0];
        CoalesceContext 3 f_one
          [CoalesceEntry (GridEntry f_05 3 2 2 2 0) true 1 33554434 1
             (f_lit 14142135623730951 10000000000000000)
             (f_lit 1109893833332405 1000000000000000) 0;
           CoalesceEntry (GridEntry f_05 1 1 1 1 0) true 0 1 2 f_zero
             (f_lit 15839497841387566 10000000000000000) 0]].
Proof. vm_compute. reflexivity. Qed.
(** The comparison of the tests, test_utils truncate_coalesce_results: ignore
    phrasematch ids. *)
Definition strip (r : res (list coalesce_context)) : res (list coalesce_context) :=
  match r with
  | Ok cs => Ok (map (fun c => CoalesceContext (cc_mask c) (cc_relev c)
       (map (fun e => CoalesceEntry (ce_entry e) (ce_lang e) (ce_idx e) (ce_tmp_id e) (ce_mask e)
                        (ce_distance e) (ce_scoredist e) 0) (cc_entries c))) cs)
  | r => r
  end.
Example multi_tree :
  match strip (tco [cm1; cm2] (MatchOpts None (Some (3, 3)) 2)),
        co [cm1; cm2] (MatchOpts None (Some (3, 3)) 2) with
  | Ok l, Ok l' => take 2 l = take 2 l' | _, _ => False end.
Proof. vm_compute. reflexivity. Qed.
