(** Model of the tools of /repo/test_utils/src/lib.rs with which the tests of
    /repo/tests/coalesce_test.rs make their stores and keys. The directory of create_store
    is deleted when it returns; as elsewhere, an open store keeps its contents. *)
From Verif Require Import Prelude F64 Common Builder Spatial Store.
Local Open Scope N_scope.

(** langarray_to_langfield, 31-37: [1 << lang] at u128. *)
Definition langarray_to_langfield (p : profile) (array : list N) : res N :=
  res_foldl (fun out lang => let* bit := ushl p 128 1 lang in Ok (N.lor out bit)) 0 array.

(** struct TestStore, 53-57. *)
Record test_store := TestStore { ts_store : store; ts_idx : N; ts_non : N }.
(** create_store, 62-90: one insert per block, finish, open on the whole grid. *)
Definition create_store (p : profile) (o : hash_oracle) (blocks : list (grid_key * list grid_entry))
    (idx zoom type_id non : N) (radius : f64) : res test_store :=
  let* d := (match finish o (foldl (fun b (r : grid_key * list grid_entry) => insert b r.1 r.2) builder_new blocks) ∅ with
             | Ok d => Ok d
             | Diverge => Diverge
             | _ => Panic
             end) in
  let* boxes := global_bbox_for_zoom p zoom in
  Ok (TestStore (open_store d zoom type_id radius boxes f_one) idx non).
