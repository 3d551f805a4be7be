{
 "claims": [
  {
   "property": "C01",
   "status": "proved",
   "theorems": [
    "C01_store_round_trip",
    "C01_store_exists"
   ],
   "note": "Histories of in-range calls with at most 2^27 entries per key, no phrase id 2^32-1."
  },
  {
   "property": "C02",
   "status": "proved",
   "theorems": [
    "C02_get_sorted",
    "C02_order_independent"
   ],
   "note": "Strict order, and equal sets of entries are read back as equal lists."
  },
  {
   "property": "C03",
   "status": "proved",
   "theorems": [
    "C03_score_exact",
    "C03_score_safe",
    "C03_score_refuted"
   ],
   "note": "The claim for every u8 score is refuted; scores up to 15 are proved safe and the exact effect of any u8 score is proved."
  },
  {
   "property": "C04",
   "status": "proved",
   "theorems": [
    "C04_write_order",
    "C04_empty_compact_refuted"
   ],
   "note": "Byte-identical database for any two hash orders; a compact_append without coordinates is excluded and shown to differ."
  },
  {
   "property": "C05",
   "status": "proved",
   "theorems": [
    "C05_keys"
   ],
   "note": ""
  },
  {
   "property": "C06",
   "status": "proved",
   "theorems": [
    "C06_iter"
   ],
   "note": ""
  },
  {
   "property": "C07",
   "status": "proved",
   "theorems": [
    "C07_phrases_ascending",
    "C07_languages_refuted"
   ],
   "note": "Phrase ids ascend; the claim for language sets is refuted."
  },
  {
   "property": "C08",
   "status": "proved",
   "theorems": [
    "C08_key_injective",
    "C08_key_not_bounds",
    "C08_key_decodable"
   ],
   "note": ""
  },
  {
   "property": "C09",
   "status": "proved",
   "theorems": [
    "C09_fixed_vec",
    "C09_uniform_vec",
    "C09_var_vec",
    "C09_root",
    "C09_record"
   ],
   "note": ""
  },
  {
   "property": "C10",
   "status": "proved",
   "theorems": [
    "C10_sharing"
   ],
   "note": ""
  },
  {
   "property": "C100",
   "status": "proved",
   "theorems": [
    "C100_replayed",
    "C100_again",
    "C100_replace",
    "C100_stores",
    "C100_stackable",
    "C100_settings_refuted",
    "C100_interrupted_refuted"
   ],
   "note": "Dumps are those of C80 (each insert with an entry, boundaries in order). A line of JSON stands for the value it is read as; downloads and compression are left out."
  },
  {
   "property": "C101",
   "status": "proved",
   "theorems": [
    "C101_agree",
    "C101_exact",
    "C101_proximity_refuted"
   ],
   "note": "Ids of the matches below 2^32 for C101_agree; the set of non-overlapping indexes does not contain 129, the index of the root (it holds indexes below 128). C101_exact needs a finite weight; it uses the axioms of the real numbers."
  },
  {
   "property": "C102",
   "status": "proved",
   "theorems": [
    "C102_levels",
    "C102_relevance_refuted"
   ],
   "note": "The order within equal relevance is that of C17 and C18."
  },
  {
   "property": "C103",
   "status": "proved",
   "theorems": [
    "C103_store",
    "C103_large_zoom",
    "C103_languages",
    "C103_large_languages",
    "C103_languages_refuted"
   ],
   "note": "Blocks in range: phrase ids below 2^32-1, entries in the ranges of their types with scores up to 15, at most 2^27 entries per block. The temporary directory is deleted while the store is open; an open store is taken to keep its contents."
  },
  {
   "property": "C104",
   "status": "proved",
   "theorems": [
    "C104_once",
    "C104_alone",
    "C104_own",
    "C104_twice",
    "C104_request"
   ],
   "note": "A read is a key handed to phase 1 (one call of streaming_get_matching); the list of them is computed beside the search (Spec_work.v). C104_twice for distinct subqueries, which collapse_phrasematches always gives (C104_request)."
  },
  {
   "property": "C105",
   "status": "proved",
   "theorems": [
    "C105_kept",
    "C105_stacks",
    "C105_new",
    "C105_request",
    "C105_all_refuted"
   ],
   "note": "Under the conditions of C72: subqueries fit for C60, own key ids, room within the quotas (for the larger request in C105_kept, the smaller one in C105_new) and fewer than 800 results. C105_request: the same for a request and what is left of it without some groups of phrasematches. C105_all_refuted shows that the exception occurs."
  },
  {
   "property": "C106",
   "status": "proved",
   "theorems": [
    "C106_e_pow",
    "C106_tiles",
    "C106_worth",
    "C106_order",
    "C106_match",
    "C106_listed"
   ],
   "note": "Zooms below 64; distances and radii in a range in which nothing overflows or underflows. Uses the real numbers of the standard library (exp) and Flocq."
  },
  {
   "property": "C107",
   "status": "proved",
   "theorems": [
    "C107_children"
   ],
   "note": "Two phrasematches of the same type, weight and index may come in either order."
  },
  {
   "property": "C11",
   "status": "proved",
   "theorems": [
    "C11_selects",
    "C11_limited",
    "C11_multiset"
   ],
   "note": ""
  },
  {
   "property": "C12",
   "status": "proved",
   "theorems": [
    "C12_flag",
    "C12_never_filters"
   ],
   "note": ""
  },
  {
   "property": "C13",
   "status": "proved",
   "theorems": [
    "C13_penalty"
   ],
   "note": ""
  },
  {
   "property": "C14",
   "status": "proved",
   "theorems": [
    "C14_bbox_exact",
    "C14_bbox_release",
    "C14_inverted_debug_refuted",
    "C14_query"
   ],
   "note": "Cell lists and whole queries; an inverted box panics in debug builds, release is proved for every box."
  },
  {
   "property": "C15",
   "status": "proved",
   "theorems": [
    "C15_proximity_perm",
    "C15_bbox_proximity_perm",
    "C15_query"
   ],
   "note": ""
  },
  {
   "property": "C16",
   "status": "proved",
   "theorems": [
    "C16_proximity_order",
    "C16_bbox_proximity_order",
    "C16_proximity_exact",
    "C16_bbox_proximity_exact"
   ],
   "note": ""
  },
  {
   "property": "C17",
   "status": "proved",
   "theorems": [
    "C17_order"
   ],
   "note": ""
  },
  {
   "property": "C18",
   "status": "proved",
   "theorems": [
    "C18_order_refuted"
   ],
   "note": "The universal claim is refuted by a witness; C16 and C15 state what does hold."
  },
  {
   "property": "C19",
   "status": "proved",
   "theorems": [
    "C19_best",
    "C19_prefix"
   ],
   "note": ""
  },
  {
   "property": "C20",
   "status": "proved",
   "theorems": [
    "C20_zero",
    "C20_zero_refuted"
   ],
   "note": ""
  },
  {
   "property": "C21",
   "status": "proved",
   "theorems": [
    "C21_transparent"
   ],
   "note": ""
  },
  {
   "property": "C22",
   "status": "proved",
   "theorems": [
    "C22_zero_first",
    "C22_leak_refuted"
   ],
   "note": ""
  },
  {
   "property": "C23",
   "status": "proved",
   "theorems": [
    "C23_terminates",
    "C23_refuted",
    "C23_diverge_is_nontermination"
   ],
   "note": "Termination proved without phrase id 2^32-1; with it the loop is proved never to exit."
  },
  {
   "property": "C24",
   "status": "proved",
   "theorems": [
    "C24_max_id",
    "C24_max_id_refuted"
   ],
   "note": ""
  },
  {
   "property": "C25",
   "status": "proved",
   "theorems": [
    "C25_relabel",
    "C25_get"
   ],
   "note": ""
  },
  {
   "property": "C26",
   "status": "proved",
   "theorems": [
    "C26_success",
    "C26_no_panic"
   ],
   "note": ""
  },
  {
   "property": "C27",
   "status": "proved",
   "theorems": [
    "C27_not_atomic_refuted",
    "C27_remainder"
   ],
   "note": "Atomicity is refuted; what a failed renumber leaves behind is bounded."
  },
  {
   "property": "C28",
   "status": "proved",
   "theorems": [
    "C28_crash",
    "C28_records",
    "C28_no_bins"
   ],
   "note": "Crash points are between database writes; a single put is atomic (RocksDB's guarantee, trusted)."
  },
  {
   "property": "C29",
   "status": "proved",
   "theorems": [
    "C29_overlay",
    "C29_bounds",
    "C29_stale_refuted"
   ],
   "note": ""
  },
  {
   "property": "C30",
   "status": "proved",
   "theorems": [
    "C30_bits",
    "C30_bijection",
    "C30_monotone",
    "C30_box"
   ],
   "note": ""
  },
  {
   "property": "C31",
   "status": "proved",
   "theorems": [
    "C31_binary_search",
    "C31_finds"
   ],
   "note": ""
  },
  {
   "property": "C32",
   "status": "proved",
   "theorems": [
    "C32_zoom_out",
    "C32_zoom_in",
    "C32_in_and_out",
    "C32_out_and_in"
   ],
   "note": "Zoom differences below 16 and, when zooming in, a target zoom of at most 16."
  },
  {
   "property": "C33",
   "status": "proved",
   "theorems": [
    "C33_diff_16",
    "C33_overflow_refuted",
    "C33_in_16_refuted"
   ],
   "note": "The wish is refuted; the theorem says exactly what happens at difference 16 when zooming out."
  },
  {
   "property": "C34",
   "status": "proved",
   "theorems": [
    "C34_padding",
    "C34_nearby"
   ],
   "note": ""
  },
  {
   "property": "C35",
   "status": "proved",
   "theorems": [
    "C35_overflow",
    "C35_overflow_refuted",
    "C35_disjoint_refuted"
   ],
   "note": "The wish is refuted; C35_overflow gives the exact panicking points at zoom 16."
  },
  {
   "property": "C36",
   "status": "proved",
   "theorems": [
    "C36_not_nan",
    "C36_distance_antitone",
    "C36_score_monotone",
    "C36_far_constant",
    "C36_lower_bound",
    "C36_not_nan_any_zoom_refuted",
    "C36_strictly_decreasing_refuted"
   ],
   "note": "Uses Flocq and the standard library's axioms for the reals (classic, sig_forall_dec, sig_not_dec, functional_extensionality_dep). Findings: NaN at absurd zooms with radius 0; distances below one tile are not told apart."
  },
  {
   "property": "C37",
   "status": "proved",
   "theorems": [
    "C37_correctly_rounded",
    "C37_order",
    "C37_symmetric",
    "C37_zero_iff",
    "C37_positive_iff",
    "C37_monotone",
    "C37_axis"
   ],
   "note": "Uses Flocq and the standard library's axioms for the reals (classic, sig_forall_dec, sig_not_dec, functional_extensionality_dep)."
  },
  {
   "property": "C38",
   "status": "proved",
   "theorems": [
    "C38_top_n",
    "C38_contexts"
   ],
   "note": ""
  },
  {
   "property": "C39",
   "status": "proved",
   "theorems": [
    "C39_eager_groupby",
    "C39_concat"
   ],
   "note": ""
  },
  {
   "property": "C40",
   "status": "proved",
   "theorems": [
    "C40_shape"
   ],
   "note": ""
  },
  {
   "property": "C41",
   "status": "proved",
   "theorems": [
    "C41_tmp_id",
    "C41_unique",
    "C41_collision_refuted"
   ],
   "note": "Finding: layers 0 and 128 collide."
  },
  {
   "property": "C42",
   "status": "proved",
   "theorems": [
    "C42_backed",
    "C42_stored",
    "C42_complete",
    "C42_best"
   ],
   "note": ""
  },
  {
   "property": "C43",
   "status": "proved",
   "theorems": [
    "C43_id_0_refuted"
   ],
   "note": "Finding: the plain claim that all ids are treated alike is refuted by the witness."
  },
  {
   "property": "C44",
   "status": "proved",
   "theorems": [
    "C44_contexts",
    "C44_stored",
    "C44_mask_0_refuted"
   ],
   "note": ""
  },
  {
   "property": "C45",
   "status": "proved",
   "theorems": [
    "C45_empty_refuted"
   ],
   "note": "Finding: panics for every input."
  },
  {
   "property": "C46",
   "status": "proved",
   "theorems": [
    "C46_paths",
    "C46_relevance"
   ],
   "note": ""
  },
  {
   "property": "C47",
   "status": "proved",
   "theorems": [
    "C47_complete",
    "C47_best"
   ],
   "note": ""
  },
  {
   "property": "C48",
   "status": "proved",
   "theorems": [
    "C48_parent",
    "C48_grandparent_refuted"
   ],
   "note": "Finding: only the direct parent is checked; the stronger claim is refuted by the witness."
  },
  {
   "property": "C49",
   "status": "proved",
   "theorems": [
    "C49_arena",
    "C49_bound",
    "C49_reachable",
    "C49_tree_bound"
   ],
   "note": "Finding: the soft maximum does not bound ties with the minimum."
  },
  {
   "property": "C50",
   "status": "proved",
   "theorems": [
    "C50_paths",
    "C50_stacks",
    "C50_stored",
    "C50_shared_id_refuted",
    "C50_zoom_order_refuted"
   ],
   "note": "Findings: shared key ids and out-of-order zooms, both shown by witnesses."
  },
  {
   "property": "C51",
   "status": "proved",
   "theorems": [
    "C51_shape"
   ],
   "note": ""
  },
  {
   "property": "C52",
   "status": "proved",
   "theorems": [
    "C52_terminates",
    "C52_whole"
   ],
   "note": "The fuel of the model's loop is shown to suffice for every input."
  },
  {
   "property": "C53",
   "status": "proved",
   "theorems": [
    "C53_relevance"
   ],
   "note": ""
  },
  {
   "property": "C54",
   "status": "proved",
   "theorems": [
    "C54_collapse",
    "C54_total",
    "C54_keys",
    "C54_lost_refuted"
   ],
   "note": "Finding: keys after the first of a later group member are dropped."
  },
  {
   "property": "C55",
   "status": "proved",
   "theorems": [
    "C55_to_set",
    "C55_to_array",
    "C55_set_round_trip",
    "C55_array_round_trip",
    "C55_integers"
   ],
   "note": "Finding: negative numbers and NaN become language 0."
  },
  {
   "property": "C56",
   "status": "proved",
   "theorems": [
    "C56_lifecycle",
    "C56_built",
    "C56_phrase_refuted"
   ],
   "note": "Finding: oversized phrase ids saturate to the one that makes finish() hang."
  },
  {
   "property": "C57",
   "status": "proved",
   "theorems": [
    "C57_best_kept",
    "C57_estimate_refuted"
   ],
   "note": "Finding: without the proviso on estimates the claim is refuted by the witness."
  },
  {
   "property": "C58",
   "status": "proved",
   "theorems": [
    "C58_keys"
   ],
   "note": ""
  },
  {
   "property": "C59",
   "status": "proved",
   "theorems": [
    "C59_sound"
   ],
   "note": ""
  },
  {
   "property": "C60",
   "status": "proved",
   "theorems": [
    "C60_complete",
    "C60_all",
    "C60_stacks",
    "C60_best_first_refuted"
   ],
   "note": "Finding: the early stop drops steps opened in the same chunk, so a better stack than every result can be missed."
  },
  {
   "property": "C61",
   "status": "proved",
   "theorems": [
    "C61_limits",
    "C61_complete",
    "C61_all",
    "C61_roomy_refuted",
    "C61_shortcut_refuted"
   ],
   "note": "Findings: quotas used up by weak leaves hide the best stacks; the autocomplete shortcut hides stacks although there is room."
  },
  {
   "property": "C62",
   "status": "proved",
   "theorems": [
    "C62_unique",
    "C62_exact",
    "C62_once",
    "C62_stackable",
    "C62_shared_ids_refuted"
   ],
   "note": "C62_shared_ids_refuted shows that the requirement on key ids is needed."
  },
  {
   "property": "C63",
   "status": "proved",
   "theorems": [
    "C63_converted",
    "C63_unique",
    "C63_rejected",
    "C63_accepted",
    "C63_call",
    "C63_results"
   ],
   "note": ""
  },
  {
   "property": "C64",
   "status": "proved",
   "theorems": [
    "C64_exact",
    "C64_complete"
   ],
   "note": ""
  },
  {
   "property": "C65",
   "status": "proved",
   "theorems": [
    "C65_release",
    "C65_careful",
    "C65_whole",
    "C65_careful_refuted"
   ],
   "note": "C65_careful_refuted and C50_zoom_order_refuted show that the conditions for debug builds are needed."
  },
  {
   "property": "C66",
   "status": "proved",
   "theorems": [
    "C66_release",
    "C66_careful",
    "C66_own_zoom_refuted"
   ],
   "note": "C66_own_zoom_refuted shows that the condition on the zoom of the options is needed; for the empty stack see C45."
  },
  {
   "property": "C67",
   "status": "proved",
   "theorems": [
    "C67_hash_order",
    "C67_layer_order",
    "C67_two_zooms_refuted"
   ],
   "note": "C67_two_zooms_refuted shows that the condition on zooms is needed."
  },
  {
   "property": "C68",
   "status": "proved",
   "theorems": [
    "C68_owed",
    "C68_middle_refuted"
   ],
   "note": "C68_middle_refuted: a match of a middle layer that stands on nothing is dropped."
  },
  {
   "property": "C69",
   "status": "proved",
   "theorems": [
    "C69_maximal",
    "C69_unanchored_refuted"
   ],
   "note": "C69_unanchored_refuted: a match of a middle layer with nothing below it is not stood upon."
  },
  {
   "property": "C70",
   "status": "proved",
   "theorems": [
    "C70_window",
    "C70_penalty_refuted"
   ],
   "note": "C70_penalty_refuted: the window is measured before the penalty for the order of words."
  },
  {
   "property": "C71",
   "status": "proved",
   "theorems": [
    "C71_tree",
    "C71_alone",
    "C71_all",
    "C71_shortcut_refuted",
    "C71_ids_refuted"
   ],
   "note": "C71_shortcut_refuted and C71_ids_refuted show that the exception for the shortcut and the condition on ids are needed."
  },
  {
   "property": "C72",
   "status": "proved",
   "theorems": [
    "C72_order",
    "C72_request",
    "C72_ties_refuted"
   ],
   "note": "C72_ties_refuted: beyond the limits the order shows."
  },
  {
   "property": "C73",
   "status": "proved",
   "theorems": [
    "C73_options",
    "C73_matching",
    "C73_coalesce",
    "C73_tree",
    "C73_request",
    "C73_js"
   ],
   "note": ""
  },
  {
   "property": "C74",
   "status": "proved",
   "theorems": [
    "C74_tree",
    "C74_request",
    "C74_coalesce",
    "C74_nearby_refuted",
    "C74_zoom_refuted"
   ],
   "note": "C74_nearby_refuted and C74_zoom_refuted: coalesce does not keep to the neighbourhood of the point, and does not adjust a single layer."
  },
  {
   "property": "C75",
   "status": "proved",
   "theorems": [
    "C75_tree",
    "C75_alone",
    "C75_request"
   ],
   "note": "The limits are hypotheses: short_answers, roomy, fewer than 800 results."
  },
  {
   "property": "C76",
   "status": "proved",
   "theorems": [
    "C76_stacks",
    "C76_alone"
   ],
   "note": "Uses Flocq and the standard library's axioms for the reals (classic, sig_forall_dec, sig_not_dec, functional_extensionality_dep). C60_best_first_refuted shows that the exception for seven nodes is needed."
  },
  {
   "property": "C77",
   "status": "proved",
   "theorems": [
    "C77_layers",
    "C77_found",
    "C77_one_layer",
    "C77_alone_refuted"
   ],
   "note": "C77_alone_refuted shows that the exception for weak stacks is needed. The limits are hypotheses: first_short, fewer than 40 results."
  },
  {
   "property": "C78",
   "status": "proved",
   "theorems": [
    "C78_session",
    "C78_queries",
    "C78_rejects",
    "C78_bins",
    "C78_map_refuted",
    "C78_last_refuted"
   ],
   "note": "The crate is a record parameter about which only the type of its ids and, for C78_bins, the shape of its bins is assumed."
  },
  {
   "property": "C79",
   "status": "proved",
   "theorems": [
    "C79_session",
    "C79_query",
    "C79_key"
   ],
   "note": "At most 2^27 entries per bin and language set, no id 2^32-1."
  },
  {
   "property": "C80",
   "status": "proved",
   "theorems": [
    "C80_identical",
    "C80_stable",
    "C80_order_refuted"
   ],
   "note": "Writing a record as JSON and reading it again is taken to give back the record. At most 2^27 entries per key, no phrase id 2^32-1."
  },
  {
   "property": "C81",
   "status": "proved",
   "theorems": [
    "C81_records",
    "C81_ranges",
    "C81_clean",
    "C81_disagree_refuted"
   ],
   "note": "At most 2^27 entries per key, and per bin and language set; no phrase id 2^32-1; boundaries of the first history are increasing, or it has none."
  },
  {
   "property": "C82",
   "status": "proved",
   "theorems": [
    "C82_tree",
    "C82_request",
    "C82_quota_refuted",
    "C82_agree_refuted"
   ],
   "note": "Below the limits means the hypotheses fit_for_C60 and roomy and a result of less than 800."
  },
  {
   "property": "C83",
   "status": "proved",
   "theorems": [
    "C83_written",
    "C83_read",
    "C83_stands_unique",
    "C83_read_bounds",
    "C83_keys_unique",
    "C83_query"
   ],
   "note": "At most 2^27 entries per key, and per bin and language set; no phrase id 2^32-1; boundaries increasing and starting at or below the smallest phrase id, or none. The files of RocksDB below the keys and values are not modelled."
  },
  {
   "property": "C84",
   "status": "proved",
   "theorems": [
    "C84_size",
    "C84_bound"
   ],
   "note": "At most 2^27 entries per key, and per bin and language set; boundaries increasing and starting at or below the smallest phrase id, or none. The width of a cell and the addresses are those of C83."
  },
  {
   "property": "C85",
   "status": "proved",
   "theorems": [
    "C85_frame",
    "C85_least"
   ],
   "note": "No compact append without coordinates (it leaves an empty group in the bytes, C04); phrase id 2^32-1 not used; boundaries increasing and starting at or below the smallest phrase id when the query is answered from bins. Nothing is said about two stores of which one answers from bins and the other from single records."
  },
  {
   "property": "C86",
   "status": "proved",
   "theorems": [
    "C86_flat",
    "C86_tree",
    "C86_frame",
    "C86_own_keys_refuted"
   ],
   "note": "For stack_and_coalesce the queue of steps is assumed to choose between equal steps by its history of comparisons (by_order), not by looking into them. C86_frame has the hypotheses of C85 for every key."
  },
  {
   "property": "C87",
   "status": "proved",
   "theorems": [
    "C87_query",
    "C87_renumber",
    "C87_request",
    "C87_order_refuted"
   ],
   "note": "Queries answered from single records (an exact id, or a range of which not both ends are boundaries). No compact append without coordinates; phrase id 2^32-1 not used. For stack_and_coalesce the queue of steps is assumed to choose between equal steps by its history of comparisons (by_order)."
  },
  {
   "property": "C88",
   "status": "proved",
   "theorems": [
    "C88_union",
    "C88_sum",
    "C88_ranges",
    "C88_boxes",
    "C88_filter",
    "C88_shards",
    "C88_bins_refuted"
   ],
   "note": "The limit is at least the number of keys written. C88_union needs neither single records nor parts without overlap."
  },
  {
   "property": "C89",
   "status": "proved",
   "theorems": [
    "C89_written",
    "C89_sound",
    "C89_found"
   ],
   "note": "The calls for each store are in range (history_ok of the native calls they stand for), zooms up to 15, finite radius. C89_found: results that stack on something or have something stacked on them; no quota applies (js_unlimited), fewer than 2000 stacks, weights that do not add up to infinity."
  },
  {
   "property": "C90",
   "status": "proved",
   "theorems": [
    "C90_merge",
    "C90_first",
    "C90_prefix",
    "C90_best_refuted"
   ],
   "note": "C90_merge names the contents of the lists for queries answered from single records; C90_first and C90_prefix hold for bins too. Phrase id 2^32-1 not used; boundaries increasing and starting at or below the smallest phrase id when the query is answered from bins."
  },
  {
   "property": "C91",
   "status": "proved",
   "theorems": [
    "C91_view",
    "C91_motion",
    "C91_limit_refuted"
   ],
   "note": "The limit is at least the number of keys written. C91_motion: answered from single records, and a box that is not upside down; C91_view covers bins as well, up to repetitions. Uses the axioms of the real numbers of the standard library through C37 (equal distances are equal doubles)."
  },
  {
   "property": "C92",
   "status": "proved",
   "theorems": [
    "C92_answers",
    "C92_built",
    "C92_never_fails",
    "C92_exact",
    "C92_early_refuted",
    "C92_dropped_refuted"
   ],
   "note": "C92_never_fails and C92_exact: every value of the database is a list of bytes, proximity point in u16, radius in tiles not infinite. The cells of one relevance and score are decoded as a whole."
  },
  {
   "property": "C93",
   "status": "proved",
   "theorems": [
    "C93_builder",
    "C93_store",
    "C93_missing",
    "C93_options",
    "C93_wrong",
    "C93_keys",
    "C93_request",
    "C93_whole"
   ],
   "note": "C93_whole: no renumber() among the calls (C93_builder covers it), calls in range. RocksDB: a directory without a database cannot be opened for reading, and an open store keeps its contents."
  },
  {
   "property": "C94",
   "status": "proved",
   "theorems": [
    "C94_sound",
    "C94_found"
   ],
   "note": "Zooms up to 15, masks not empty; a single layer at the zoom of the options. C94_found: two or more layers with distinct indexes below 128, fewer than 100000 records per layer, fewer than 40 results."
  },
  {
   "property": "C95",
   "status": "proved",
   "theorems": [
    "C95_store",
    "C95_get",
    "C95_coalesce",
    "C95_stack"
   ],
   "note": "Builders on distinct directories, no renumber(). Requests: calls and phrases in range, zooms up to 15; coalesce: masks not empty, a single layer at the zoom of the options; stackAndCoalesce: distinct ids, objects with equal weight, index and mask share a store and exclusions, types and zooms of the stores agree in order."
  },
  {
   "property": "C96",
   "status": "proved",
   "theorems": [
    "C96_refines",
    "C96_at_once",
    "C96_once",
    "C96_settled",
    "C96_progress",
    "C96_coalesce",
    "C96_stack",
    "C96_order_refuted"
   ],
   "note": "A finished task is one step; stores are read-only and shared (C93). C96_coalesce and C96_stack under the conditions of C95. A panic in a worker ends the process, so no answer follows it."
  },
  {
   "property": "C97",
   "status": "proved",
   "theorems": [
    "C97_safe",
    "C97_succeeds",
    "C97_background",
    "C97_range_refuted"
   ],
   "note": "In range: see [in_range] of Spec_safe.v; one builder per directory, no renumber() (fuzzy indexes: C68). Memory is taken to be unbounded."
  },
  {
   "property": "C98",
   "status": "proved",
   "theorems": [
    "C98_world",
    "C98_coalesce",
    "C98_stacked"
   ],
   "note": "C98_stacked under the conditions of C72 (complete and exact trees, room within the limits), both runs answering. That stores with two zooms for one idx do show the order is C67_two_zooms_refuted; that the 41st stack does is C72_ties_refuted."
  },
  {
   "property": "C99",
   "status": "proved",
   "theorems": [
    "C99_coalesce",
    "C99_stack"
   ],
   "note": "C99_coalesce under the conditions of C94 (two layers or more with distinct idx below 128, answers of fewer than 100000, all results within 0.25 of each other, fewer than 40 of them); C99_stack under those of C89 (fewer than 2000 chains, finite sums, quotas that do not apply, at most 40 stacks per key, fewer than 800 results)."
  }
 ]
}
