-Q theories Verif
theories/Prelude.v
theories/F64.v
theories/Heap.v
theories/Morton.v
theories/Format.v
theories/Common.v
theories/Builder.v
theories/Spatial.v
theories/Store.v
theories/Tests.v
theories/Query.v
theories/Stackable.v
theories/Coalesce.v
theories/Tree.v
theories/CoalesceTests.v
theories/Lists.v
theories/Format_proofs.v
theories/Record_proofs.v
theories/Spec.v
theories/Builder_proofs.v
theories/Bits_proofs.v
theories/Finish_proofs.v
theories/Store_proofs.v
theories/Order_proofs.v
theories/Unshared_proofs.v
theories/Size_proofs.v
theories/Bins_proofs.v
theories/Spatial_proofs.v
theories/Cmp_proofs.v
theories/Merge_proofs.v
theories/Float_proofs.v
theories/Spec_match.v
theories/Match_proofs.v
theories/History_proofs.v
theories/Query_proofs.v
theories/Binquery_proofs.v
theories/Durable_proofs.v
theories/Examples.v
theories/Props_storage.v
theories/Props_spatial.v
theories/Props_match.v
theories/Props_builder.v
theories/Props_zoom.v
theories/Queue_proofs.v
theories/Spec_coalesce.v
theories/Coalesce_proofs.v
theories/Multi_proofs.v
theories/Props_coalesce.v
theories/Spec_stack.v
theories/Stack_proofs.v
theories/Arena_proofs.v
theories/Best_proofs.v
theories/Props_stack.v
theories/Spec_tree.v
theories/Spec_quota.v
theories/Quota_proofs.v
theories/Tree_proofs.v
theories/Limit_proofs.v
theories/Term_proofs.v
theories/Props_tree.v
theories/Native.v
theories/Spec_native.v
theories/Native_proofs.v
theories/Props_native.v
theories/Real_proofs.v
theories/Props_float.v
theories/Spec_complete.v
theories/Spec_exact.v
theories/Complete_proofs.v
theories/Sibling_proofs.v
theories/Exact_proofs.v
theories/Props_complete.v
theories/Props_quota.v
theories/Props_exact.v
theories/Spec_js.v
theories/Props_js.v
theories/Total_proofs.v
theories/Spec_total.v
theories/Props_total.v
theories/Flat_proofs.v
theories/Props_flat.v
theories/Spec_flat.v
theories/Owed_proofs.v
theories/Max_proofs.v
theories/Window_proofs.v
theories/Props_owed.v
theories/Spec_leaf.v
theories/Leaf_proofs.v
theories/Props_leaf.v
theories/Spec_room.v
theories/Props_room.v
theories/Profile_proofs.v
theories/Props_profile.v
theories/Spec_ground.v
theories/Props_ground.v
theories/Props_found.v
theories/Bound_proofs.v
theories/Spec_best.v
theories/Props_best.v
theories/Props_layers.v
theories/Fuzzy.v
theories/Spec_fuzzy.v
theories/Props_fuzzy.v
theories/Dump.v
theories/Props_dump.v
theories/Spec_rebuild.v
theories/Rebuild_proofs.v
theories/Props_rebuild.v
theories/Spec_perm.v
theories/Props_perm.v
theories/Spec_disk.v
theories/Disk_proofs.v
theories/Props_disk.v
theories/Spec_space.v
theories/Space_proofs.v
theories/Props_space.v
theories/Spec_frame.v
theories/Frame_proofs.v
theories/Props_frame.v
theories/Spec_twin.v
theories/Twin_proofs.v
theories/Props_twin.v
theories/Spec_relabel.v
theories/Relabel_proofs.v
theories/Props_relabel.v
theories/Spec_sum.v
theories/Props_sum.v
theories/Spec_end.v
theories/Props_end.v
theories/Spec_merge.v
theories/Props_merge.v
theories/Spec_move.v
theories/Props_move.v
theories/Lazy.v
theories/Spec_lazy.v
theories/Lazy_proofs.v
theories/Props_lazy.v
theories/Session.v
theories/Spec_session.v
theories/Session_proofs.v
theories/Props_session.v
theories/Spec_flatend.v
theories/Props_flatend.v
theories/Spec_program.v
theories/Props_program.v
theories/Background.v
theories/Spec_background.v
theories/Props_background.v
theories/Spec_safe.v
theories/Props_safe.v
theories/Spec_hash.v
theories/Props_hash.v
theories/Spec_index.v
theories/Props_index.v
theories/JsTests.v
theories/Replay.v
theories/Spec_replay.v
theories/Props_replay.v
theories/Agree_proofs.v
theories/Level_proofs.v
theories/Spec_level.v
theories/Props_level.v
theories/Spec_agree.v
theories/Props_agree.v
theories/Testing.v
theories/Props_testing.v
theories/Spec_work.v
theories/Props_work.v
theories/Spec_more.v
theories/Props_more.v
theories/Spec_formula.v
theories/Formula_proofs.v
theories/Props_formula.v
theories/Props_worth.v
theories/Props_tried.v
