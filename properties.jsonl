{"id": "C01", "title": "Store round trip", "statement": "After any sequence of insert/append calls followed by finish() on an empty directory and opening the store, get(key) returns, for every key that was written, exactly the set of entries written for it (relevance snapped to 0.4/0.6/0.8/1.0, id truncated to its low 24 bits, score at most 15), each distinct entry exactly once, and None for every key that was not written.", "quantifier": "every finite sequence of insert/append operations over u32 phrase ids, u128 language sets, entries with u16 x/y, u8 hash, u32 id, score<=15", "why_tests_cant": "The input space (any number of keys, any entries, any order) is unbounded; a test fixes one data set.", "anchors": ["rust-src/src/gridstore/builder.rs: insert, append, extend_entries, get_encoded_value, finish", "rust-src/src/gridstore/store.rs: get, decode_value", "rust-src/src/gridstore/gridstore_format.rs: Writer, Reader"]}
{"id": "C02", "title": "Entry order returned by get", "statement": "get(key) returns entries in strictly decreasing order of (relevance, score), then Z-order cell, then (id, source phrase hash), independently of the order in which they were written.", "quantifier": "every builder history and every stored key", "why_tests_cant": "The input space (any number of keys, any entries, any order) is unbounded; a test fixes one data set.", "anchors": ["rust-src/src/gridstore/builder.rs: get_encoded_value", "rust-src/src/gridstore/store.rs: decode_value"]}
{"id": "C03", "title": "Score range", "statement": "Scores are stored in four bits next to the relevance, without a range check: an entry with score at most 15 is read back with its own relevance and score; for larger u8 scores the surplus bits are or-ed into the relevance code and the exact corrupted value is characterised. (Finding: the documented truncation to four bits does not hold.)", "quantifier": "every entry with any u8 score", "why_tests_cant": "Fails only on the particular relev/score pairs whose bits collide; tests use scores 1..7.", "anchors": ["rust-src/src/gridstore/builder.rs: extend_entries", "rust-src/src/gridstore/common.rs: GridEntry.score"]}
{"id": "C04", "title": "Write order and hash order do not matter", "statement": "Two builder histories that add the same multiset of entries to the same keys (in any interleaving and batching of insert-on-fresh-key, append and non-empty compact_append) produce byte-identical database contents, whatever the iteration order of the in-memory hash maps. (An empty compact_append is excluded: it is shown to leave an extra empty group.)", "quantifier": "every pair of histories equal up to reordering/batching and every hash iteration order", "why_tests_cant": "Hash iteration order is randomised per process and the number of interleavings is factorial.", "anchors": ["rust-src/src/gridstore/builder.rs: append, copy_entries, get_encoded_value, finish"]}
{"id": "C05", "title": "keys() enumerates exactly the written keys", "statement": "keys() on a finished store yields every written grid key exactly once and nothing else (not the bin records, not the boundaries record).", "quantifier": "every builder history, with any bin boundaries", "why_tests_cant": "The input space (any number of keys, any entries, any order) is unbounded; a test fixes one data set.", "anchors": ["rust-src/src/gridstore/store.rs: keys", "rust-src/src/gridstore/builder.rs: finish", "rust-src/src/gridstore/common.rs: GridKey::write_to"]}
{"id": "C06", "title": "iter() agrees with get()", "statement": "iter() yields exactly the pairs (key, entries) such that get(key) = Some(entries), each key once.", "quantifier": "every finished store", "why_tests_cant": "The input space (any number of keys, any entries, any order) is unbounded; a test fixes one data set.", "anchors": ["rust-src/src/gridstore/store.rs: iter, get"]}
{"id": "C07", "title": "Order of keys()", "statement": "keys() lists phrase ids in ascending order. The language sets of one phrase id are not in numerical order: the encoding strips leading zero bytes, and a store is exhibited where a larger set precedes a smaller one.", "quantifier": "every finished store", "why_tests_cant": "Order is only wrong for particular language-set pairs of different byte length.", "anchors": ["rust-src/src/gridstore/store.rs: keys", "rust-src/src/gridstore/common.rs: GridKey::write_to"]}
{"id": "C08", "title": "Grid key encoding is injective and decodable", "statement": "Two different grid keys never share a database key, single-phrase keys never collide with bin keys or with the ~BOUNDS record, and decoding an encoded key returns the original phrase id and language set.", "quantifier": "every pair of (u32 phrase id, u128 language set) and both record types", "why_tests_cant": "2^160 keys.", "anchors": ["rust-src/src/gridstore/common.rs: GridKey::write_to, TypeMarker", "rust-src/src/gridstore/store.rs: keys"]}
{"id": "C09", "title": "Binary record format round trip", "statement": "For every well-formed record tree, reading the bytes produced by the writer (fixed vectors, variable vectors, uniform vectors with minimal record size, root at end) returns the same tree, for every offset up to 2^32-1 bytes, with no out-of-bounds read.", "quantifier": "every sequence of relevance/score groups, coordinates and id lists whose total encoded size is below 2^32", "why_tests_cant": "Record-size classes switch at 2^8, 2^16, 2^24 byte offsets; tests never reach the larger ones.", "anchors": ["rust-src/src/gridstore/gridstore_format.rs: Writer::write_fixed_vec, write_var_vec, write_uniform_vec, Reader::*, Coord, RelevScore, PhraseRecord"]}
{"id": "C10", "title": "Id-list sharing is unobservable", "statement": "Storing identical id lists once and pointing several coordinates at them never changes what is read back.", "quantifier": "every record with any amount of id-list sharing", "why_tests_cant": "Depends on all coincidences of id lists.", "anchors": ["rust-src/src/gridstore/builder.rs: get_encoded_value (id_lists)"]}
{"id": "C11", "title": "Exact and range lookups select exactly the requested phrases", "statement": "streaming_get_matching for Exact(id) or Range{start,end} returns a match if and only if it comes from an entry written under a phrase id equal to id (resp. start<=id<end) that lies in the query's box, if any; with a limit only such matches are returned and if any is missing at least max_values others are returned. From single records the multiset of matches is that of the stored entries.", "quantifier": "every finished store, every match phrase with id < 2^32-1 (bins, if used, with increasing boundaries that start at or below the smallest phrase id), every max_values >= 1", "why_tests_cant": "The input space (any number of keys, any entries, any order) is unbounded; a test fixes one data set.", "anchors": ["rust-src/src/gridstore/store.rs: streaming_get_matching", "rust-src/src/gridstore/common.rs: MatchKey::matches_key, write_start_to"]}
{"id": "C12", "title": "Language flag", "statement": "Every returned match comes from an entry written under a selected key, and has matches_language = true exactly when that key's language set is the all-languages set or shares a language with the query's set; the language of the query never filters: two queries that differ only in language return the same entries.", "quantifier": "every store, every query language set", "why_tests_cant": "2^128 language sets.", "anchors": ["rust-src/src/gridstore/common.rs: MatchKey::matches_language", "rust-src/src/gridstore/store.rs: streaming_get_matching, decode_matching_value"]}
{"id": "C13", "title": "Language penalty", "statement": "A returned match's relevance equals the stored relevance when it matches the language or lies within the proximity radius, and exactly 0.96 times it (IEEE double product) otherwise.", "quantifier": "every store, query, proximity point and radius", "why_tests_cant": "Quantifies over all entries and radii.", "anchors": ["rust-src/src/gridstore/store.rs: decode_matching_value"]}
{"id": "C14", "title": "Bounding-box filter is exact", "statement": "With a bounding box, exactly the entries with min_x<=x<=max_x and min_y<=y<=max_y are returned, no more and no fewer, whatever Z-order range scan is used internally; both for cell lists and for whole queries. A box whose corners are inverted in Z-order stops a debug build.", "quantifier": "every coordinate list, every non-inverted bbox over u16 tiles", "why_tests_cant": "Z-order range scans have classic false-positive/negative corner cases.", "anchors": ["rust-src/src/gridstore/spatial.rs: bbox_range, bbox_filter, coord_binary_search", "rust-src/src/gridstore/store.rs: decode_matching_value"]}
{"id": "C15", "title": "Proximity only reorders", "statement": "Adding a proximity point never adds or drops an entry: the multiset of coordinates produced by the proximity iterator equals the stored list (and with a bbox equals the bbox-filtered list); a whole query returns the same stored entries with and without it.", "quantifier": "every descending coordinate list, every proximity point, every bbox", "why_tests_cant": "All merge interleavings and binary-search landing points.", "anchors": ["rust-src/src/gridstore/spatial.rs: proximity, bbox_proximity_filter"]}
{"id": "C16", "title": "Proximity iteration order", "statement": "Entries of one score group are produced in non-decreasing order of the distance of their Z-order value to the proximity point's Z-order value; of two at the same distance the one with the smaller value comes first, so that the order is determined by the entries and the point.", "quantifier": "every strictly descending coordinate list and every proximity point", "why_tests_cant": "All list/point combinations.", "anchors": ["rust-src/src/gridstore/spatial.rs: proximity, coord_binary_search"]}
{"id": "C17", "title": "Result order without proximity", "statement": "Without a proximity point the stream of matches is sorted by decreasing (relevance, scoredist), for any set of matching records, any limit and any heap tie-breaking.", "quantifier": "every store, every query without proximity, max_values >= 1", "why_tests_cant": "Heap tie breaking and number of records unbounded.", "anchors": ["rust-src/src/gridstore/store.rs: streaming_get_matching, QueueElement", "rust-src/src/gridstore/common.rs: MatchOpts"]}
{"id": "C18", "title": "Result order with proximity", "statement": "With a proximity point the stream is not in general sorted by decreasing (relevance, scoredist): a store and a query are exhibited for which it is not, because cells are visited by Z-order distance. (Finding.)", "quantifier": "one store and query (refutation of the universal claim)", "why_tests_cant": "Needs a specific geometric counterexample.", "anchors": ["rust-src/src/gridstore/store.rs: decode_matching_value, streaming_get_matching", "rust-src/src/gridstore/spatial.rs: proximity"]}
{"id": "C19", "title": "max_values keeps the best", "statement": "Without proximity and with max_values = k >= 1, the first k emitted matches have, position by position, the relevance and scoredist of the first k matches of the unlimited query, and nothing left out is better than one of them.", "quantifier": "every store, every k>=1, every heap tie-breaking", "why_tests_cant": "Depends on all competing records and tie orders.", "anchors": ["rust-src/src/gridstore/store.rs: streaming_get_matching"]}
{"id": "C20", "title": "max_values = 0 is not usable", "statement": "A query with max_values = 0 returns the empty result when nothing matches and panics as soon as one entry matches. (Finding: 0 is not usable as a limit.)", "quantifier": "every store and query", "why_tests_cant": "Edge case not reachable by default callers.", "anchors": ["rust-src/src/gridstore/store.rs: streaming_get_matching"]}
{"id": "C21", "title": "Prefix bins are transparent", "statement": "If bin boundaries are strictly increasing and every phrase id is at least the first boundary, and the limit admits every record, a range query that is answered from pre-merged prefix bins returns the same set of matches as the same query on the same history without boundaries.", "quantifier": "every builder history with at most 2^27 entries per bin and language set, every boundary list, every pair of boundaries used as range, every limit of at least the number of written keys", "why_tests_cant": "Range/boundary alignments and merged duplicates are unbounded.", "anchors": ["rust-src/src/gridstore/builder.rs: load_bin_boundaries, finish", "rust-src/src/gridstore/store.rs: streaming_get_matching", "rust-src/src/gridstore/common.rs: somewhat_eager_groupby"]}
{"id": "C22", "title": "First-bin leak", "statement": "If the loaded boundaries increase and start at 0, a range query never returns entries of phrases outside the range. With a first boundary above some phrase id it can: a store is exhibited where a phrase below the first boundary is returned. (Finding: such phrases are merged into the first bin.)", "quantifier": "every builder history with at most 2^27 entries per bin and language set, every boundary list, every limit from 1", "why_tests_cant": "Tests always start boundaries at the first phrase id.", "anchors": ["rust-src/src/gridstore/builder.rs: finish"]}
{"id": "C23", "title": "finish() terminates", "statement": "finish() terminates for every builder content without phrase id 2^32-1. With that phrase id present the boundary loop never exits, whatever else the builder holds. (Finding.)", "quantifier": "every builder content and boundary list", "why_tests_cant": "Divergence cannot be observed by a terminating test.", "anchors": ["rust-src/src/gridstore/builder.rs: finish (get_bin closure)"]}
{"id": "C24", "title": "Lookup at the maximum phrase id", "statement": "A lookup Exact(2^32-1) panics in debug builds (arithmetic overflow) and returns the empty result in release builds, on every finished store. (Finding: it is not usable for that id; all smaller ids are covered by C11.)", "quantifier": "every u32 id, both build profiles", "why_tests_cant": "Boundary value and build-profile dependent.", "anchors": ["rust-src/src/gridstore/store.rs: streaming_get_matching", "rust-src/src/gridstore/common.rs: MatchKey::matches_key"]}
{"id": "C25", "title": "renumber is a relabelling", "statement": "When renumber(map) succeeds, the builder is exactly the one that the same calls with every temporary phrase id i replaced by map[i] would have produced: nothing is lost or merged, and after finish() get() under the final id returns what get() under the temporary id would have returned.", "quantifier": "every builder content and every id map", "why_tests_cant": "All maps and contents.", "anchors": ["rust-src/src/gridstore/builder.rs: renumber"]}
{"id": "C26", "title": "renumber success condition", "statement": "renumber succeeds exactly when every written phrase id is inside the map and no two written keys are mapped to the same (phrase id, language set); otherwise it returns an error, it never panics.", "quantifier": "every builder content and every id map", "why_tests_cant": "Hash order is random.", "anchors": ["rust-src/src/gridstore/builder.rs: renumber"]}
{"id": "C27", "title": "renumber failure atomicity", "statement": "A failed renumber does not leave the builder unchanged: records not yet moved are lost (a history is exhibited). What remains is always a part of the relabelled records, and the boundaries are kept. (Finding.)", "quantifier": "every failing renumber", "why_tests_cant": "State after error paths is not tested.", "anchors": ["rust-src/src/gridstore/builder.rs: renumber"]}
{"id": "C28", "title": "Crash while writing", "statement": "If the process stops after any proper prefix of the database writes of finish() into an empty directory, the opened directory behaves for get, keys, iter and streaming_get_matching like the store of the calls on the keys whose records were written, without boundaries: every record present is complete, a record once written stays, and no bin is consulted.", "quantifier": "every builder content, every crash point", "why_tests_cant": "Every crash point of every content.", "anchors": ["rust-src/src/gridstore/builder.rs: finish", "rust-src/src/gridstore/store.rs: new_with_options"]}
{"id": "C29", "title": "Rebuilding over an existing directory", "statement": "After writing a second history over an existing directory, get() returns the second history's value for every key it wrote and the first one's value for every other key; the boundaries are the second's. (Finding: stale keys survive, a pair of histories is exhibited.)", "quantifier": "every pair of builder contents", "why_tests_cant": "Pairs of histories.", "anchors": ["rust-src/src/gridstore/builder.rs: GridStoreBuilder::new, finish"]}
{"id": "C30", "title": "Z-order coordinate coding", "statement": "Interleaving x and y into a 32-bit cell number is a bijection on u16 pairs, is strictly monotone in each coordinate, and orders the corners of a box around every cell in the box.", "quantifier": "every pair of u16 coordinates", "why_tests_cant": "2^32 cells.", "anchors": ["rust-src/src/gridstore/builder.rs: extend_entries (interleave_morton)", "rust-src/src/gridstore/store.rs: decode_value (deinterleave_morton)", "rust-src/src/gridstore/spatial.rs: bbox_range"]}
{"id": "C31", "title": "Coordinate binary search", "statement": "The binary search over a strictly descending coordinate list returns, from a given offset, the first position whose value is at most the wanted one, the last position if there is none, an error when the offset is past the end, and never reads out of bounds.", "quantifier": "every strictly descending list, every value, every offset", "why_tests_cant": "All lists.", "anchors": ["rust-src/src/gridstore/spatial.rs: coord_binary_search"]}
{"id": "C32", "title": "Zooming a query in and out", "statement": "Zooming match options out maps the proximity tile to its ancestor tile and the bbox to exactly the ancestors of its tiles; zooming in maps the bbox to exactly the descendants of its tiles and the point to one of its descendants. Zooming in and out again gives back the same point and the same tiles; zooming out and in again keeps every tile of the box inside.", "quantifier": "every tile and non-inverted box of the source zoom, every pair of zooms up to 16 with difference below 16, both build profiles", "why_tests_cant": "All tiles at all zoom pairs.", "anchors": ["rust-src/src/gridstore/common.rs: MatchOpts::adjust_to_zoom", "rust-src/src/gridstore/spatial.rs: adjust_bbox_zoom"]}
{"id": "C33", "title": "Zoom shift overflow", "statement": "(Finding) A zoom difference of 16 is not handled: zooming out by 16 panics in debug builds whenever the options have a point or a box, and in release builds relabels the zoom while leaving point and box unmoved, so the result is not a tile of the target zoom. Zooming a point in from 0 to 16 panics in debug builds and goes to the far corner in release builds.", "quantifier": "every pair of zooms, both build profiles", "why_tests_cant": "Profile dependent boundary.", "anchors": ["rust-src/src/gridstore/common.rs: MatchOpts::adjust_to_zoom", "rust-src/src/gridstore/spatial.rs: adjust_bbox_zoom"]}
{"id": "C34", "title": "Nearby-only restriction", "statement": "with_nearby_only pads by the least number of tiles covering 25 miles at the equator, and produces a box whose tiles are exactly those tiles of the caller's box (all tiles if there is none) that lie within the padding of the proximity point in both axes; it never inverts when some tile qualifies.", "quantifier": "every options value with zoom<=15 and every point of that zoom, both build profiles", "why_tests_cant": "All boxes/points; saturating arithmetic edges.", "anchors": ["rust-src/src/gridstore/common.rs: MatchOpts::with_nearby_only"]}
{"id": "C35", "title": "Nearby-only overflow", "statement": "(Finding) with_nearby_only panics in debug builds at zoom 16 exactly for points within 66 tiles of the eastern or southern edge (row or column >= 65470), and in release builds returns a box that excludes the point itself; a caller box that does not meet the nearby square yields an inverted box with which a debug query panics.", "quantifier": "every options value, both build profiles", "why_tests_cant": "Edge tiles at one zoom level.", "anchors": ["rust-src/src/gridstore/common.rs: MatchOpts::with_nearby_only", "rust-src/src/gridstore/spatial.rs: bbox_range"]}
{"id": "C36", "title": "scoredist monotonicity", "statement": "For a fixed zoom and radius, scoredist never increases when the distance grows and never decreases when the score grows. At or beyond the proximity radius (and at least one tile away) it no longer depends on the distance. It is never NaN and never below the score factor. (Findings: distances below one tile are all treated as 0.8, so they are not told apart; at zooms so large that tiles_per_mile overflows, a radius of 0 gives NaN.)", "quantifier": "every zoom below 1024, every finite non-negative distance, every score, every finite non-negative radius (IEEE doubles with rounding)", "why_tests_cant": "Floating-point rounding over 2^64 inputs.", "anchors": ["rust-src/src/gridstore/spatial.rs: scoredist, proximity_radius, tiles_per_mile_by_zoom"]}
{"id": "C37", "title": "tile_dist is a metric-like distance", "statement": "tile_dist is the exact Euclidean distance rounded once to the nearest double. Rounding never merges or reorders two different distances: two results compare exactly as the integer squared distances do. Hence it is symmetric, zero exactly on equal tiles, strictly positive otherwise, monotone in |dx| and |dy| (strictly if either grows), and exact along an axis.", "quantifier": "every pair of tiles below 2^16", "why_tests_cant": "2^64 pairs.", "anchors": ["rust-src/src/gridstore/spatial.rs: tile_dist"]}
{"id": "C38", "title": "Bounded priority queue keeps the top n", "statement": "After pushing any sequence of elements into a bounded priority queue of capacity n, into_vec_desc returns min(n, pushes) elements in descending order; together with the dropped elements they are exactly the pushed multiset, and no dropped element is greater than a kept one, whatever way the underlying heap breaks ties.", "quantifier": "every total preorder (the order on contexts is one), every push sequence, every capacity including 0, every heap tie-breaking", "why_tests_cant": "Unbounded sequences, heap internals.", "anchors": ["rust-src/src/gridstore/common.rs: ConstrainedPriorityQueue"]}
{"id": "C39", "title": "Consecutive grouping", "statement": "The eager group-by yields groups that concatenate back to the input, each non-empty and with a single key, adjacent groups having different keys.", "quantifier": "every input sequence and every (stateless) key function", "why_tests_cant": "Unbounded sequences.", "anchors": ["rust-src/src/gridstore/common.rs: somewhat_eager_groupby"]}
{"id": "C40", "title": "coalesce result shape", "statement": "Every successful coalesce result has at most 40 contexts, all non-empty, is sorted by decreasing relevance, then decreasing scoredist, increasing layer index, decreasing x, y and id of the first entry, has every relevance less than 0.25 below the best one, and never has two contexts with the same first temporary id.", "quantifier": "every stack, store content, query options, hash order, heap tie-breaking, build profile", "why_tests_cant": "All combinations of stores and stacks.", "anchors": ["rust-src/src/gridstore/coalesce.rs: coalesce, coalesce_single, coalesce_multi"]}
{"id": "C41", "title": "Feature temporary ids", "statement": "The temporary ids of two entries made from 24-bit feature ids are equal exactly when the feature ids are equal and the layer indexes are equal modulo 128; hence they identify (layer, feature) among the first 128 layers, and computing them never overflows. (Finding: layers 0 and 128 share temporary ids, and coalesce drops a feature of one of them as a duplicate of the other's.)", "quantifier": "every layer index, every 24-bit feature id, both build profiles", "why_tests_cant": "Edge of bit packing.", "anchors": ["rust-src/src/gridstore/coalesce.rs: grid_to_coalesce_entry"]}
{"id": "C42", "title": "coalesce of one layer returns each feature's best match", "statement": "For a one-layer stack over a built store, at the store's zoom, coalesce succeeds and every context is a single entry carrying a stored matching entry unchanged but for the multiplication of its relevance by the weight. When at most 80 matches are found and their weighted relevances lie within 0.25, every matched feature with non-zero id (or positive scoredist) is returned unless 40 contexts are; when moreover matches come by decreasing relevance, no match of a returned feature has at least its relevance and a greater scoredist.", "quantifier": "every history of builder operations, weight, query options, hash order, heap tie-breaking", "why_tests_cant": "All stores.", "anchors": ["rust-src/src/gridstore/coalesce.rs: coalesce_single"]}
{"id": "C43", "title": "Feature id 0", "statement": "coalesce of one layer does not treat all feature ids alike: a match of feature 0 with scoredist 0 coming first is dropped, while the same match with id 1 is returned. (Finding; C42 states what holds for every other feature.)", "quantifier": "witness", "why_tests_cant": "Sentinel value collision.", "anchors": ["rust-src/src/gridstore/coalesce.rs: coalesce_single, tree_coalesce_single"]}
{"id": "C44", "title": "coalesce_multi contexts are consistent", "statement": "In every context of a multi-layer coalesce whose masks are non-zero and whose zooms differ by less than 16: the entries come from matches of the stack's layers found with the options adjusted to the layer's zoom (and so from stored entries), the first entry's cell is nested in each other entry's cell, the masks are pairwise disjoint and the context's mask is their union, and the relevance is the accumulated one (each entry added; a better entry of the same mask replacing the last one), less 0.01 only if the context has one entry or its second entry's mask is below the first one's. (Finding: with a layer of mask 0 the context's mask may be one that none of its entries has.)", "quantifier": "every stack of at least two subqueries with non-zero masks and zoom differences below 16, every store content, options, hash order, tie-breaking, build profile", "why_tests_cant": "All combinations.", "anchors": ["rust-src/src/gridstore/coalesce.rs: coalesce_multi"]}
{"id": "C45", "title": "coalesce of an empty stack", "statement": "coalesce of an empty list of subqueries never returns a result: it panics, for every option and profile. (Finding: the callers must check.)", "quantifier": "every query option and build profile", "why_tests_cant": "Not exercised by tests; a panic aborts the caller.", "anchors": ["rust-src/src/gridstore/coalesce.rs: coalesce"]}
{"id": "C46", "title": "stackable: every stack is legal", "statement": "Every root-to-node path of the stacking tree is a legal stack: its subqueries come from the input, have strictly increasing type ids and pairwise disjoint masks, and none declares the index of its direct parent non-overlapping. The node's mask and blocked-index set are the unions over the path, its index and zoom those of the last subquery, and its relevance is the left-to-right sum of weights of the path or of some legal extension of it. Without NaN a node is at least as relevant as its own stack and as each of its children.", "quantifier": "every list of subqueries", "why_tests_cant": "All subquery sets.", "anchors": ["rust-src/src/gridstore/stackable.rs: stackable, binned_stackable"]}
{"id": "C47", "title": "stackable: completeness below the cap", "statement": "If fewer than 2000 legal stacks can be formed from distinct subqueries, every legal stack is a path of the tree, and the relevance of the root is that of the most relevant stack.", "quantifier": "every duplicate-free list of subqueries with fewer than 2000 legal stacks", "why_tests_cant": "All subquery sets.", "anchors": ["rust-src/src/gridstore/stackable.rs: binned_stackable, ArenaManager"]}
{"id": "C48", "title": "stackable: non-overlapping indexes", "statement": "No subquery of a path declares the index of its direct parent non-overlapping. (Finding: the intended 'no two subqueries of a path are declared non-overlapping' is refuted: a grandparent's index is not looked at, and the accumulated blocked-index set is never consulted.)", "quantifier": "every list of subqueries", "why_tests_cant": "Needs three layers with a special configuration.", "anchors": ["rust-src/src/gridstore/stackable.rs: binned_stackable"]}
{"id": "C49", "title": "stackable: arena bound", "statement": "Whatever nodes are offered to the arena, in any order and with any limit: its leaf count is exact, its lookup of the minimum bucket never fails, it contains only offered nodes, and a node that is not kept is strictly less relevant than every kept one, the limit being reached. If only leaves are offered, fewer than the limit are strictly above any kept one (Finding: nodes equal to the minimum are always accepted, so the soft maximum does not bound the total). In a tree with finite relevances every kept node is reachable from the root; if every subquery adds relevance, fewer than 2000 kept leaves are strictly above any kept node.", "quantifier": "every limit, every sequence of additions, every list of subqueries with finite accumulated weights", "why_tests_cant": "Heap internals and unbounded sequences.", "anchors": ["rust-src/src/gridstore/stackable.rs: ArenaManager::add, cull_min"]}
{"id": "C50", "title": "tree_coalesce: results are sound", "statement": "If each match-key id names one key of one store, every context returned by tree_coalesce corresponds to a path from the root of the stack tree, which is a legal stack of the given phrasematches: one entry per level of the path, innermost first, each obtained from a stored entry that matches a key of that level's phrasematch, with its cell inside the box scaled from the entry before it when the layers' zooms are in order; the context mask is the union of the levels' masks. (Findings: two subqueries that share a match-key id return one another's data, as the cache is keyed by id alone; a child layer with a smaller zoom than its parent panics in a debug build and stacks cells that are not nested in a release build. Both are shown by a concrete run.)", "quantifier": "every tree, store contents, query options, heap tie-breaking", "why_tests_cant": "Best-first search over unbounded trees.", "anchors": ["rust-src/src/gridstore/coalesce.rs: tree_coalesce, CoalesceStep"]}
{"id": "C51", "title": "tree_coalesce: shape", "statement": "Results are sorted by decreasing context order and number at most 800 (20*MAX_CONTEXTS).", "quantifier": "every tree, options, tie-breaking", "why_tests_cant": "Unbounded search.", "anchors": ["rust-src/src/gridstore/coalesce.rs: tree_coalesce"]}
{"id": "C52", "title": "tree_coalesce: terminates", "statement": "The best-first loop of tree_coalesce terminates on every tree that stackable builds, whatever the stores hold; so does stack_and_coalesce as a whole.", "quantifier": "every list of subqueries, store contents, options, hash order, tie-breaking, build profile", "why_tests_cant": "Divergence is not testable.", "anchors": ["rust-src/src/gridstore/coalesce.rs: tree_coalesce"]}
{"id": "C53", "title": "tree_coalesce: relevance accounting", "statement": "A context's relevance is the sum of its entries' relevances, each the stored relevance times its phrasematch's weight, minus 0.01 exactly when the context has one entry or the mask of its first (innermost) entry is greater than that of its second; contexts of a childless first-level node are never penalized.", "quantifier": "every context returned", "why_tests_cant": "Floating-point accumulation over all trees.", "anchors": ["rust-src/src/gridstore/coalesce.rs: tree_coalesce, penalize_multi_context"]}
{"id": "C54", "title": "Phrasematch collapsing", "statement": "collapse_phrasematches puts together the subqueries with equal weight (as OrderedFloat), layer index and mask: each group stands in the place of its first member and has that member's store and settings, with the keys of that member followed by the first key of each later member, in order; it fails only if a later member has no key. When every subquery has one key (as from JavaScript) no key is lost, repeated or invented, and no two groups could be put together further. (Finding: of a later member with several keys all but the first are lost, shown by a concrete list.)", "quantifier": "every list of subqueries", "why_tests_cant": "Hash grouping over unbounded lists.", "anchors": ["rust-src/src/gridstore/coalesce.rs: collapse_phrasematches"]}
{"id": "C55", "title": "Language array round trip", "statement": "langarray_to_langset accepts exactly null, undefined and arrays of numbers; null/undefined give all 128 languages, an array gives the set of its members' integer parts below 128 (Finding: negative numbers and NaN count as language 0). langset_to_langarray lists the languages of a set in ascending order; converting a set to an array and back gives the set, and an array to a set and back gives its members below 128, sorted and without repetitions.", "quantifier": "every JavaScript value and every 128-bit set", "why_tests_cant": "2^128 sets.", "anchors": ["native/src/gridstore.rs: langarray_to_langset, langset_to_langarray"]}
{"id": "C56", "title": "Builder lifecycle from JavaScript", "statement": "Before finish() each call on the JS builder object either stands for a native call, which it makes, or is rejected without effect, and the database is not touched; finish() writes what the native builder holds; afterwards every call, including finish(), reports an error and neither the object nor the database changes. Without renumber() the finished directory is one written natively by the accepted calls. (Finding: a phrase id of 2^32 or more is taken for 2^32-1, with which finish() never returns.)", "quantifier": "every sequence of JS calls", "why_tests_cant": "All call sequences.", "anchors": ["native/src/gridstore.rs: JsGridStoreBuilder"]}
{"id": "C57", "title": "stackable: the best stacks are kept", "statement": "Beyond the soft maximum too, every legal stack is either a path of the tree or strictly less relevant than every kept node while at least 2000 leaves are kept, provided the pruning estimate (weight so far plus the largest weights of later types, summed backwards) is never below the accumulated weight. (Finding: the proviso is needed, because 0.1+(0.2+0.3) < (0.1+0.2)+0.3 in f64: a stack as relevant as the kept ones is pruned.)", "quantifier": "every list of subqueries with finite accumulated weights whose estimates hold", "why_tests_cant": "Needs thousands of stacks and all orders of weights.", "anchors": ["rust-src/src/gridstore/stackable.rs: binned_stackable, ArenaManager"]}
{"id": "C58", "title": "Key iteration from JavaScript", "statement": "Calling next() on the key iterator of a finished store yields every written key exactly once, then {done: true} on every further call; a yielded key object given back to get() reads the record of the very key it came from.", "quantifier": "every history of writes, every number of calls", "why_tests_cant": "Unbounded stores; all 2^32 phrase ids and 2^128 language sets through f64 conversions.", "anchors": ["native/src/gridstore.rs: JsGridKeyStoreKeyIterator, JsGridStore.get, langset_to_langarray", "rust-src/src/gridstore/store.rs: keys"]}
{"id": "C59", "title": "stack_and_coalesce is sound end to end", "statement": "If match-key ids name one key of one store and subqueries with equal weight, index and mask agree on store and exclusions, every context returned by stack_and_coalesce stands for a legal stack of the given (uncollapsed) subqueries: one entry per level, innermost first, each a match of a key of that very subquery, nested in the next, with the masks of the stack.", "quantifier": "every list of subqueries, store contents, options, hash order and heap tie-breaking", "why_tests_cant": "Collapsing, tree building and best-first search composed over unbounded inputs.", "anchors": ["rust-src/src/gridstore/coalesce.rs: stack_and_coalesce, collapse_phrasematches, tree_coalesce"]}
{"id": "C60", "title": "tree_coalesce misses nothing but what its limits cut off", "statement": "If key ids name one key of one store, finer layers come below coarser ones and the bounding boxes of a store cover its contents, then every stack of matches along a path of the tree - one entry per level, each in the cell of the level above, all from keys no quota applies to, and not a lone leaf of the first level - is in the result of tree_coalesce with exactly the context of that stack, unless (a) the result holds 800 contexts that are all listed before it, (b) 40 other stacks of the same path and innermost key are listed before it, or (c) the result holds 800 contexts and the search was ended by a node whose promised relevance no context of the result is below. With fewer than 800 results and fewer than 40 stacks per key nothing is missed. The same holds for every legal chain of subqueries when fewer than 2000 chains are legal. (Finding: (c) cannot be dropped. The early stop compares one step only and throws away the steps opened by the same chunk, so a stack of relevance 1.0 can be missed although all 800 results have relevance 0.8.)", "quantifier": "every tree, list of subqueries, store contents, options, hash order and heap tie-breaking", "why_tests_cant": "A best-first search in chunks with caches, two bounded queues and an early stop; completeness quantifies over all stacks in unbounded stores.", "anchors": ["rust-src/src/gridstore/coalesce.rs: tree_coalesce, CoalesceStep, ConstrainedPriorityQueue"]}
{"id": "C61", "title": "Quotas of tree_coalesce: upper bound, and what they can hide", "statement": "tree_coalesce has five quotas: 8 one-letter autocomplete ranges of a single word, 40 autocomplete ranges of a single word, 8 of those in stores of zoom 14 or more that are not restricted to what is nearby, 40 such ranges of any kind, and 600 such keys of any kind. (a) In every run, of the keys whose every use falls under a quota at most as many as the quota allows contribute entries to the result. (b) Under the conditions of C60, but without its restriction to keys that no quota applies to, a stack of matches is returned, or missed for one of the three reasons of C60, or because its innermost key is a single-word autocomplete range of a leaf in a store of zoom 14 or more whose promised relevance is at most three quarters of a relevance already found, or because one of its keys falls under a quota and the nodes of the tree ask for more keys under that quota than it allows. So a tree whose keys fit into the quotas loses nothing to them. (Findings: the quotas are used up in the order of the search and not of relevance, so nine one-letter ranges looked up on their own hide every stack they form with another layer: the result holds 9 contexts, all of lower relevance than the hidden stack. The shortcut hides stacks although the result has room.)", "quantifier": "every tree or list of subqueries, store contents, options, hash order and heap tie-breaking", "why_tests_cant": "The counters are shared by all steps of the search and their effect depends on the order in which steps are taken; the claim is over all orders and all trees.", "anchors": ["rust-src/src/gridstore/coalesce.rs:451-640 tree_coalesce (quotas and shortcut)"]}
{"id": "C62", "title": "tree_coalesce returns nothing but stacks, and none twice", "statement": "For every tree whose keys are named by their ids, whose layers are ordered by zoom and whose siblings differ, every context returned by tree_coalesce is either the context of a stack of the tree (one entry per level, each the first match of its cell and feature and inside the cell of the one above, with the mask, relevance and penalty of that stack) or the context of a single match of a first-level leaf; and no two returned contexts have the same entries. The tree that stackable builds from different subqueries has such siblings, and holds each stack at most once. (Finding: if two subqueries share their key ids, the same entries can be returned twice.)", "quantifier": "all trees, all lists of subqueries and stores behind them, all options, hash orders and tie breaks, both build profiles", "why_tests_cant": "The contexts of a node are made from cached grids over several rounds, with deduplication by key id, queues of 40 and 800, and a separate path for leaves; a test checks a few results, not that no execution ever returns a context that is no stack or returns one twice.", "anchors": ["rust-src/src/gridstore/coalesce.rs:451-862 tree_coalesce", "rust-src/src/gridstore/coalesce.rs:865-950 tree_coalesce_single", "rust-src/src/gridstore/stackable.rs:154-265 stackable"]}
{"id": "C63", "title": "A phrasematch object stands for exactly one subquery, or the call is rejected", "statement": "From JavaScript, every phrasematch object whose properties are all there and of the right type stands for exactly one subquery: the same store, weight, mask and index; one key with the object's phrase, id, language set and phrase length; nearby_only off when it is left out; and as indexes it may not be stacked with exactly those listed, in any order and with repetitions. A list of objects is accepted if and only if every object is readable, and is then converted one by one; otherwise coalesce and stackAndCoalesce reject the call with an error and never panic. If the ids are distinct, objects with equal weight, index and mask agree on store and exclusions, and layers of a higher type do not have a lower zoom, the results of an accepted stackAndCoalesce call are stacks of these subqueries, and no result comes twice.", "quantifier": "for all lists of phrasematch objects, all property values, all options", "why_tests_cant": "The values of the properties are unbounded: tests use a few well-formed objects, never all combinations of missing, mistyped or repeated values.", "anchors": ["native/src/gridstore.rs:424-450", "native/src/gridstore.rs:466-504", "native/src/gridstore.rs:506-572"]}
{"id": "C64", "title": "stack_and_coalesce as a whole returns only stacks of what it was given, each once, and below its limits misses none", "statement": "For subqueries with one key each, distinct ids, agreeing groups and layers ordered by zoom, every result of stack_and_coalesce is either a nested stack of subqueries of the input that may be stacked, one entry per subquery, with the summed relevance and united mask, or a single match of one subquery; no two results have the same entries. Although the subqueries are collapsed into groups first, if fewer than 2000 stacks are possible and the boxes given for each store cover the tiles it returns, every nested stack of the given subqueries (of two or more, or of one on which another could stand) is in the result unless the result is full (800), or forty other stacks on the same layers with the same innermost key are listed before it, or it involves keys under the quotas of C61.", "quantifier": "for all lists of subqueries, stores, options, hash orders and tie-breaking orders", "why_tests_cant": "Completeness speaks about all stacks that exist in the stores for all inputs; a test only compares the output for chosen stores with chosen expectations.", "anchors": ["rust-src/src/gridstore/coalesce.rs:451-992", "rust-src/src/gridstore/stackable.rs:154-265"]}
{"id": "C65", "title": "The search over the stacking tree answers: no panic, no error, no endless loop", "statement": "If every subquery has a key, its store was written by calls in range with a finite proximity radius, and its phrases are in range, then tree_coalesce of the stacking tree and stack_and_coalesce return a list in a release build for every list of subqueries, options with 16-bit coordinates, hash order and tie-breaking order. They do so in a build with overflow checks and debug assertions as well if all zooms are at most 15, the query's point and box are tiles of its zoom with the box not empty, layers of a higher type do not have a lower zoom, ranges do not end before they start, and the proximity point is inside the box when there are nearby-only keys. (Finding: without these conditions a debug build panics where a release build answers: a store of zoom 16, a nearby-only key whose surroundings miss the box, an inverted range, layers out of zoom order.)", "quantifier": "for all lists of subqueries, stores written in range, options, hash orders and tie-breaking orders", "why_tests_cant": "Absence of panics has to hold for all inputs, including arithmetic overflow that only debug builds detect; tests run a handful of inputs.", "anchors": ["rust-src/src/gridstore/coalesce.rs:451-992", "rust-src/src/gridstore/common.rs:118-187", "rust-src/src/gridstore/spatial.rs:601-629"]}
{"id": "C66", "title": "coalesce answers: no panic, no error, no endless loop", "statement": "If the stack is not empty, every subquery has a key, its store was written by calls in range with a finite proximity radius and its phrases are in range, and, when there is only one subquery, the options are given at the zoom of its store, then coalesce returns a list in a release build for all options with 16-bit coordinates, every hash order and every tie-breaking order. It does so in a build with overflow checks and debug assertions as well if all zooms are at most 15 and the query's point and box are tiles of its zoom with the box not empty. (Finding: the zoom of the options is not checked for a single layer, as the code's comment relies on the caller. At another zoom a debug build panics at the first match, and box and proximity are silently applied to tiles of the wrong zoom, so that a match inside the box is lost that the same query over two layers returns.)", "quantifier": "for all non-empty stacks, stores written in range, options, hash orders and tie-breaking orders", "why_tests_cant": "Absence of panics has to hold for all inputs, including arithmetic overflow that only debug builds detect; tests run a handful of inputs.", "anchors": ["rust-src/src/gridstore/coalesce.rs:24-339", "rust-src/src/gridstore/common.rs:118-187"]}
{"id": "C67", "title": "The result of coalesce depends neither on hash order nor on the order of the layers", "statement": "If masks are not 0, zooms differ by less than 16 and layers of the same index have the same zoom, coalesce returns the same list whatever the iteration order of its hash maps, although the final lists are filled by iterating over them. If no two layers have the same index, it also returns the same list whatever the order in which the layers are given. (Finding: when two layers share an index but not a zoom, contexts for different tiles with equal coordinates tie, and the hash order decides which one is returned.)", "quantifier": "for all stacks, stores, options, build profiles and pairs of hash orders", "why_tests_cant": "Rust's hash maps are seeded at random, so a dependence on their order shows only now and then and only in ties.", "anchors": ["rust-src/src/gridstore/coalesce.rs:77-339"]}
{"id": "C68", "title": "coalesce over several layers loses no match without a reason", "statement": "Take a stack of two or more layers with different indices, masks not 0 and zooms less than 16 apart, ordered by zoom and index. A match is one of the first 100000 that streaming_get_matching returns for the first key of its layer. It is owed a result if its layer is the last one, or the first one, or if it lies in the tile of such a match of an earlier layer with other words of the query. For every match that is owed a result there is a stack led by it such that coalesce returns this stack, or it returns a context for the same layer and id that is listed no later, or it returns 40 contexts that are all listed no later, or this stack or one listed no later has a relevance a quarter or more below that of some possible stack. (Finding: a match of a middle layer with no match below it is dropped however good it is, and is not returned alone, although it would be if its layer came first or last.)", "quantifier": "for all stacks, stores, options, hash orders, tie orders and build profiles, and all matches", "why_tests_cant": "A dropped match shows only in a search whose layers, masks and tiles line up; tests compare a few fixed stacks with fixed lists.", "anchors": ["rust-src/src/gridstore/coalesce.rs:25-52", "rust-src/src/gridstore/coalesce.rs:180-339"]}
{"id": "C69", "title": "No context returned by coalesce has room for another match below it", "statement": "Under the conditions of C68, every context returned by coalesce is led by a match of some layer, and every match of an earlier layer that is owed a result, has another index and contains the leading match in its tile uses words of the query (bits of the mask) that the context already uses. (Finding: a match of a middle layer with nothing below it cannot be stood upon, so that it is left out even where it is the only thing below.)", "quantifier": "for all stacks, stores, options, hash orders, tie orders and build profiles, and all returned contexts", "why_tests_cant": "Whether a parent is left out depends on the masks, the tiles and the order in which the parents are met; tests fix a few of these.", "anchors": ["rust-src/src/gridstore/coalesce.rs:226-270", "rust-src/src/gridstore/coalesce.rs:291-316"]}
{"id": "C70", "title": "Nothing returned by coalesce is a quarter below a stack of an earlier layer", "statement": "Under the conditions of C68, every match of a layer before the last one that is owed a result leads a stack with no room left such that every returned context is less than 0.25 below a relevance that this stack does not exceed. (Finding: the window is measured from relevances before the penalty for the order of words, so a context less than 0.25 below the best returned context can be missing.)", "quantifier": "for all stacks, stores, options, hash orders, tie orders and build profiles, and all such matches and returned contexts", "why_tests_cant": "The cut shows only for relevances that differ by about a quarter, and the running maximum matters only for some orders of the matches.", "anchors": ["rust-src/src/gridstore/coalesce.rs:271-290", "rust-src/src/gridstore/coalesce.rs:319-325"]}
{"id": "C71", "title": "tree_coalesce does not lose a feature of a subquery that stands alone without a reason", "statement": "If nothing can stack on a subquery, then each of the first 80 records of one of its keys, up to which all relevances are less than 0.25 apart, has a result for its feature among those returned, never for a record of the feature found earlier that is worse, unless 800 returned results or 40 other features of the key are listed before it, or the result is full and the weight of the subquery promises nothing better, or the shortcut for autocomplete leaves or a quota that the keys of the tree exceed applies. (Finding: when two subqueries use the same key id only one of them is looked up.)", "quantifier": "for all lists of subqueries with fewer than 2000 stacks and distinct key ids, all stores, options, hash orders, tie orders and build profiles, and all such records", "why_tests_cant": "What is lost depends on the quotas, on what earlier rounds have found and on the order of records; a test sees one order of one query.", "anchors": ["rust-src/src/gridstore/coalesce.rs:489-612", "rust-src/src/gridstore/coalesce.rs:613-682", "rust-src/src/gridstore/coalesce.rs:865-934"]}
{"id": "C72", "title": "Below its limits, hash order does not show in the result of tree_coalesce", "statement": "If the keys of the tree fit into the quotas, the shortcut for autocomplete leaves does not apply, no key ends more than 40 stacks of any list of subqueries or has more than 40 features when its subquery stands alone, and fewer than 800 results are returned, then another run that differs only in the order in which hash maps hand out their elements returns the same results, up to their order. The same holds for stack_and_coalesce. (Finding: beyond the limits it does show: of 41 stacks that end in the same match all are listed equal, and which of them is left out depends on the order.)", "quantifier": "for all lists of subqueries with fewer than 2000 stacks and distinct key ids, all stores, options, build profiles, tie orders and any two hash orders", "why_tests_cant": "Tests run with one order; whether another order would give the same results cannot be seen from any number of runs with the same build.", "anchors": ["rust-src/src/gridstore/coalesce.rs:457-860", "rust-src/src/gridstore/coalesce.rs:976-985", "rust-src/src/gridstore/common.rs:489-533"]}
{"id": "C73", "title": "Overflow checks and debug assertions only turn answers into panics", "statement": "Every call to streaming_get_matching, coalesce, tree_coalesce, stack_and_coalesce, and the two calls from JavaScript, when run in a build with overflow checks and debug assertions either panics or gives exactly the same outcome as an optimised build; the same holds for adjusting options to a zoom and to the neighbourhood of a point.", "quantifier": "for all stores, subqueries, trees, options, limits, hash orders and tie orders", "why_tests_cant": "Tests run in one build; that the two builds agree wherever the checked one answers is a claim about pairs of runs on every input.", "anchors": ["rust-src/src/gridstore/common.rs:125-187", "rust-src/src/gridstore/store.rs:318-382", "rust-src/src/gridstore/coalesce.rs:24-985", "native/src/gridstore.rs:466-504"]}
{"id": "C74", "title": "Every entry of a result was written for a phrase asked for, and lies where the query asks", "statement": "Each entry of each result of tree_coalesce and stack_and_coalesce belongs to one subquery and one of its keys: a call wrote it for a phrase the key asks for, with the same score, position, id and hash, and its relevance is the written one as the format keeps it, less 4 % at most where the language does not match, times the weight; its tile shares ground with the box of the query, whatever the zooms, and it lies within the padding for nearby results of the point if the key asks for that. The same, without the last part, holds for coalesce of several layers and of one layer at the zoom of the options. (Findings: coalesce ignores the nearby flag; for a single layer it takes the box to be at the zoom of the layer, so that an optimised build returns what lies outside and misses what lies inside.)", "quantifier": "for all subqueries on stores written by any calls in range, at zooms up to 15, all options of a zoom up to 15 with tiles that exist, all hash orders, tie orders and build profiles", "why_tests_cant": "It joins the writer, the format, the lookup, the adjustment between zooms and the search; tests check each with a few tiles, and none covers the combinations of zooms, boxes and points.", "anchors": ["rust-src/src/gridstore/builder.rs:110-153", "rust-src/src/gridstore/store.rs:318-382", "rust-src/src/gridstore/common.rs:125-187", "rust-src/src/gridstore/coalesce.rs:24-340", "rust-src/src/gridstore/coalesce.rs:451-985"]}
{"id": "C75", "title": "Below the limits, what was written and is asked for is found", "statement": "Take one entry, as written by the calls, for each subquery of a stack that may be formed, each written for a phrase of one of the keys, in a tile that shares ground with the box of the query and near the point if the key asks for that, the tile of each in the tile of the next. If the request stays below the limits (less than 100000 records answer a key, the keys fit into the quotas, at most 40 stacks end in the same key, less than 800 results), then one of the results has for each of them an entry of the same key, tile and feature. For a subquery that nothing stacks on there is a result for the feature, if less than 80 records of similar relevance answer the key.", "quantifier": "for all calls in range, all subqueries on the stores they wrote with distinct key ids and boxes that cover what was written, all options of a zoom up to 15 with tiles that exist, all hash orders, tie orders and build profiles", "why_tests_cant": "It is a claim about everything that could be found; a test only checks the few results it knows of.", "anchors": ["rust-src/src/gridstore/builder.rs:110-153", "rust-src/src/gridstore/store.rs:318-382", "rust-src/src/gridstore/common.rs:125-187", "rust-src/src/gridstore/coalesce.rs:451-985", "rust-src/src/gridstore/stackable.rs:154-265"]}
{"id": "C76", "title": "When not everything fits, the tree search keeps the most relevant", "statement": "Let the weights be finite and not negative. A stack that may be formed, with its entries each in the tile of the next, is returned; or the result holds 800 others, each at least as relevant; or 40 stacks that end in the same key are listed before it; or the shortcut for autocomplete leaves or a quota applies to one of its keys; or it stands on one of at most seven nodes of the tree, the same for the whole call. (Finding: these nodes are those looked at together with the step that ends the search; what they open is dropped, even if more relevant than everything returned.) For a subquery that nothing stacks on there is no such exception.", "quantifier": "for all sets of subqueries that form fewer than 2000 stacks, with distinct key ids, on any stores that answer within their boxes, all options, hash orders, tie orders and build profiles", "why_tests_cant": "The bound that allows the search to stop is a sum of doubles over each path of the tree, compared with results of 800 or more stacks; tests stay far below that.", "anchors": ["rust-src/src/gridstore/coalesce.rs:480-515", "rust-src/src/gridstore/coalesce.rs:692-860", "rust-src/src/gridstore/stackable.rs:154-265"]}
{"id": "C77", "title": "Flat coalesce finds what was written, below its limits", "statement": "Let layers be written and opened, fewer than 100000 records answer the first key of each, and fewer than 40 contexts be returned by coalesce. An entry that was written for a layer under the phrase and in the box asked for, and that lies in the tile of such an entry of an earlier layer with other words of the query (and so on down to the first layer), or is of the last layer, leads a returned context, or another entry of the same feature and layer does, or the stack that it leads, or one listed before it, is a quarter or more below another stack. If all stacks are less than a quarter apart it is found. For a single layer at the zoom of the query the same holds with 80 records of similar relevance and ids other than 0. (Finding: a match with nothing below it is dropped where another one stands on an earlier layer of large weight, even in another place.)", "quantifier": "for all histories of builder calls per layer, all sequences of two or more layers with distinct indices below 128 and non-empty masks, all options, hash orders, tie orders and build profiles", "why_tests_cant": "The claim goes from the calls that wrote the data to what the query returns, over all data below the limits; a test compares one query on one data set.", "anchors": ["rust-src/src/gridstore/coalesce.rs:24-178", "rust-src/src/gridstore/coalesce.rs:180-339", "rust-src/src/gridstore/store.rs:318-382", "rust-src/src/gridstore/builder.rs:110-153"]}
{"id": "C78", "title": "The phrase set from JavaScript", "statement": "Before finish() each accepted call on a phrase set builder makes the same call on the native builder, in order: insert() returns the phrase's id as a number that is exactly that integer, loadWordReplacements() returns undefined, a failure of the native call is a failure of the JavaScript call, and a rejected argument changes nothing. finish() returns the native id map unchanged; after it every call fails and changes nothing. Distances and ids given to a phrase set arrive truncated and limited to their type (negative numbers and NaN become 0); arguments of the wrong kind throw. getPrefixBins() returns the first id of every bin followed by one past the last id, ascending. (Findings: with 2^30 ids or more finish() writes the set, drops the builder and then panics without giving the map; a last bin ending in 2^32-1 stops a debug build and makes a release build return a boundary of 0.)", "quantifier": "for all implementations of the fuzzy-phrase crate, all builders, all sequences of calls with any arguments, both build profiles", "why_tests_cant": "The crate is arbitrary and the sequences unbounded; the failing cases need 2^30 phrases.", "anchors": ["native/src/fuzzy_phrase.rs:16-107", "native/src/fuzzy_phrase.rs:119-266", "native/src/fuzzy_phrase.rs:268-306"]}
{"id": "C79", "title": "Indexing with the ids of a phrase set", "statement": "Let grids be written from JavaScript under the ids that insert() of the phrase set gave, then renumbered with the map that its finish() gave, with the boundaries that getPrefixBins() gave, and finished, the last three calls succeeding. The directory is the one that the accepted calls, made with final ids, would have written. A query for a final id, or for any range of final ids (answered from bins or from single records), returns exactly the matches of the entries written under the temporary ids which the map takes to a selected id.", "quantifier": "for all sequences of calls on the grid builder, all id maps and bins (ascending, apart, covering the final ids), all queries and options in range, all hash and merge orders, both build profiles", "why_tests_cant": "It relates three separate structures (temporary ids, final ids, bins) over all data; a test sees one small phrase set, where temporary and final ids often coincide.", "anchors": ["native/src/gridstore.rs:92-295", "native/src/fuzzy_phrase.rs:72-107", "native/src/fuzzy_phrase.rs:268-306", "rust-src/src/gridstore/builder.rs:155-260", "rust-src/src/gridstore/store.rs:318-382"]}
{"id": "C80", "title": "Dump and load of a store", "statement": "Dumping a finished store and loading the dump into a new directory gives a byte-identical database, whatever the order in which hash tables are iterated, if the prefix boundaries were given in ascending order and no compact_append was empty. For every other history the load still succeeds, get() and iter() of the copy answer the same, and the copy's own dump is the same dump. (Finding: the dump sorts the boundaries; a store built with unsorted boundaries answers range queries differently from its copy.)", "quantifier": "for all histories of calls on the builder with values in range, all hash orders of the original build, the dump, the load and the second dump", "why_tests_cant": "The round trip must hold for every content, including entries merged from several calls, rounded relevances and truncated ids, and for every hash order; a test sees one dump file.", "anchors": ["test_utils/src/lib.rs:113-131", "test_utils/src/lib.rs:133-154", "rust-src/src/gridstore/store.rs:404-425", "rust-src/src/gridstore/builder.rs:178-242"]}
{"id": "C81", "title": "Queries on a directory that was written twice", "statement": "After a second history was written over the directory of a first one, get, keys, iter and every query answered from single records behave as in a fresh directory written by the calls of the first history on keys that the second did not touch, followed by the second history. A range between two boundaries of the second history is answered differently: it finds exactly the entries of the second history in the range, and those entries of the first history whose old bin (its number in the range) was not written again under the same language set. If all old bins were written again, or the first history had no boundaries, it finds exactly the entries of the second. (Finding: the two kinds of query disagree. An old record that the query for its phrase finds is missing from the range, and a range can find an entry that no record holds any more.)", "quantifier": "for all pairs of histories with values in range and increasing boundaries, all queries and options in range, all hash and merge orders, both build profiles", "why_tests_cant": "The tests always build into a new directory; the leftovers depend on two histories and two lists of boundaries.", "anchors": ["rust-src/src/gridstore/builder.rs:184-242", "rust-src/src/gridstore/store.rs:318-382", "rust-src/src/gridstore/store.rs:264-300"]}
{"id": "C82", "title": "Below the limits, the order of the subqueries does not show", "statement": "The subqueries of a request may be given in any order, and the keys of a subquery in any order: as long as the request stays below the limits of tree_coalesce (quotas, 40 stacks per key, 2000 nodes, 800 results), the same results are returned, up to their order among equals. For stack_and_coalesce this holds if subqueries that are put together have the same store, exclusions and weight. (Finding: beyond the quotas it fails; of nine one-letter ranges the last in the list is the one not looked up. It also fails if subqueries that are put together differ in their store, because that of the first is used for all.)", "quantifier": "for all lists of subqueries and rearrangements of them, stores, options, hash, merge and heap orders, both build profiles, below the limits", "why_tests_cant": "The tests give the subqueries in one order; there are factorially many, and the tree, its node numbers and the walk over it are different for each.", "anchors": ["rust-src/src/gridstore/stackable.rs:154-272", "rust-src/src/gridstore/coalesce.rs:443-860", "rust-src/src/gridstore/coalesce.rs:952-985"]}
{"id": "C83", "title": "The bytes in the directory", "statement": "Every finished directory has one fixed layout, described without the writer and the readers: the keys (type byte, phrase id big-endian, shortest form of the language set), the name and form of the bin boundaries, and the values (little-endian root address, LEB128 counts and addresses, address width of a cell list as small as possible, groups, cells and ids in descending order, packing of relevance, score, coordinates, id and hash into numbers); it holds a key for each phrase and language set written, one for each bin and language set, the boundaries, and nothing else. Conversely any directory with this layout is read correctly, whoever wrote it and however the parts of a value are arranged: get() gives exactly the entries listed, in that order, and a query finds exactly the entries written for the requested phrases.", "quantifier": "for all histories of calls within range and hash orders (writer); for all directories laid out this way, keys, options, limits, merge and heap orders, both build profiles (readers)", "why_tests_cant": "The tests write and read with the same code: a change made to both sides passes them and makes existing directories unreadable.", "anchors": ["rust-src/src/gridstore/gridstore_format.rs:146-197", "rust-src/src/gridstore/gridstore_format.rs:255-489", "rust-src/src/gridstore/builder.rs:56-100", "rust-src/src/gridstore/builder.rs:184-240", "rust-src/src/gridstore/common.rs:26-45", "rust-src/src/gridstore/store.rs:35-77"]}
{"id": "C84", "title": "What a record costs", "statement": "A value of a finished directory takes exactly the bytes that its parts need: for each different id list of the record, however many cells and groups share it, its length and four bytes per id, once; for each group of cells its length, a width, and per cell four bytes and one to four for the address; for each group a byte and its address; the number of groups; four bytes at the end; and no byte more. So a value has at most 9 bytes, plus 5 + 4 per id for each different id list, 8 for each cell and 12 for each pair of relevance and score.", "quantifier": "for all histories of calls within range, hash orders, phrase records and bin records", "why_tests_cant": "Sharing is invisible to every reader (C10), so a test of results cannot see it fail; the size depends on which lists coincide.", "anchors": ["rust-src/src/gridstore/builder.rs:56-97", "rust-src/src/gridstore/gridstore_format.rs:146-197", "rust-src/src/gridstore/gridstore_format.rs:405-484"]}
{"id": "C85", "title": "What is not asked for does not change an answer", "statement": "The answer of streaming_get_matching, as a list with its order and its limit, is a function of the entries written for the phrases that the query asks for: two stores of the same radius whose calls wrote the same entries for these phrases (in any order, as often as one likes, in one call or several) give the same list, whatever else the two hold, provided that both answer from single records or both from bins of the same boundaries. In particular a store answers like one to which only the calls for the phrases of the query were made.", "quantifier": "for all pairs of histories within range that agree on the phrases of a query, hash orders, queries, options, limits, profiles and tie-breaks", "why_tests_cant": "A scan that strays into a neighbouring key, or a record whose bytes depend on other records, shows only for some neighbours; the claim is about every content that the rest of the directory may have.", "anchors": ["rust-src/src/gridstore/store.rs:318-427", "rust-src/src/gridstore/common.rs:81-110", "rust-src/src/gridstore/builder.rs:184-260"]}
{"id": "C86", "title": "What no key of a request asks for does not change its results", "statement": "The results of coalesce and of stack_and_coalesce are a function of the subqueries, of the options of their stores (zoom, type, boxes, maximal score) and of the answers of the stores to the keys of the request: replacing stores by others with the same options and the same answers changes no result, no score and no order. With C85, only the entries written for the phrases of the request matter: everything else in the stores can be changed, removed or added. (Finding: for stack_and_coalesce the answers to the keys of all subqueries of the same index count, because subqueries of equal index, weight and mask are merged onto the store of the first; agreement on the keys of each subquery alone is not enough.)", "quantifier": "for all requests, pairs of families of stores that agree on what is asked, options, profiles, hash orders and tie-breaks that depend on the order of the steps alone", "why_tests_cant": "That some part of the computation reads around the keys, or that an order depends on it, shows only for some contents of the rest of the stores; the claim is about all.", "anchors": ["rust-src/src/gridstore/coalesce.rs:24-339", "rust-src/src/gridstore/coalesce.rs:451-863", "rust-src/src/gridstore/coalesce.rs:952-985", "rust-src/src/gridstore/stackable.rs:154-265"]}
{"id": "C87", "title": "Phrase ids are names of which only the order counts", "statement": "If two stores of the same radius hold the same entries for the same language sets under phrase ids that correspond in order, then a query of the one for some ids and a query of the other for the corresponding ids give the same list of matches, in the same order; the languages asked for may differ as long as every language set that occurs meets both or neither. So renumber changes no answer: what was found under a temporary id is found under its final id, in the same order, if that final id was given to no other phrase. Requests (coalesce and stack_and_coalesce) whose keys are changed in this way give the same results. (Finding: without the order of the ids the answers can differ: of two records whose first entries differ in the phrase hash alone, the limit keeps the one of the smaller id.)", "quantifier": "for all histories of builder calls, renamings, queries answered from single records, requests, options, limits, profiles, hash orders and tie-breaks (for requests: that depend on the order of the steps alone)", "why_tests_cant": "A dependence on the numbers themselves (a bit of an id, a language byte read as part of it, an order by id) shows only for some ids; the claim is about every renaming.", "anchors": ["rust-src/src/gridstore/store.rs:307-382", "rust-src/src/gridstore/common.rs:22-110", "rust-src/src/gridstore/builder.rs:155-176", "rust-src/src/gridstore/coalesce.rs:24-339", "rust-src/src/gridstore/coalesce.rs:451-863"]}
{"id": "C88", "title": "Queries add up", "statement": "Let a query of one store be cut into parts: ranges of phrases into smaller ranges or single ids, a box into boxes, the data into several stores, or all of these at once. Below the limit the whole finds exactly what the parts find together. When single records answer and no entry is asked for by two parts, the answer is the sum of the answers of the parts, with repetitions counted. So a range [a, b) is [a, c) and [c, b); a box is its two halves; a query within a box gives the part of the query without a box that lies in it; and data spread over several stores by key gives the same matches as one store. (Finding: with bins repetitions are not counted: an entry written for two phrases of a bin comes once from the bin and twice from the records.)", "quantifier": "for all histories of builder calls (one for each store), lists of parts, phrases, boxes, languages, proximity points, zooms, limits not below the number of keys, profiles, hash orders and tie-breaks", "why_tests_cant": "An error at a cut (an entry at an end of a range or on an edge of a box lost or doubled) shows only for data on the cut; the claim is about every cut of every query.", "anchors": ["rust-src/src/gridstore/store.rs:318-382", "rust-src/src/gridstore/store.rs:80-220", "rust-src/src/gridstore/spatial.rs:14-190", "rust-src/src/gridstore/common.rs:80-200"]}
{"id": "C89", "title": "From JavaScript calls to JavaScript results", "statement": "Stores are built by calls of insert, append, compactAppend and loadBinBoundaries from JavaScript, then finish(), and asked by stackAndCoalesce with phrasematch objects. Each entry of each result belongs to one of the objects (its id, idx and mask) and was written by a call, under a key that the arguments of the call stand for and that has not been overwritten by a later insert; the phrase of the key is one the object asks for, the tile shares ground with the box of the options and is near the point if the object asks for nearby results, the relevance is that of the format times the weight of the object, and the tile of each entry lies in the tile of the next. The objects of a result can be stacked: the types of their stores decrease, no two share a word of the query, and none excludes the index of the next. Conversely, entries that calls wrote for objects that can be stacked, with tiles that nest, come together in some result, while the result is not full, no key has more than forty stacks, no quota applies and no answer of a store is cut off. Calls with arguments of a wrong type leave no trace.", "quantifier": "for all lists of JavaScript calls for each store (with arguments in range, accepted or rejected), lists of phrasematch objects with distinct ids, options, hash orders, tie-breaks and profiles", "why_tests_cant": "It joins every step between the two ends (argument conversion, key encoding, records, bins, queries, collapsing, stacking, coalescing) for all call sequences; tests of the bindings check single requests on small fixtures.", "anchors": ["native/src/gridstore.rs:90-295", "native/src/gridstore.rs:424-572", "rust-src/src/gridstore/builder.rs:110-153", "rust-src/src/gridstore/store.rs:318-382", "rust-src/src/gridstore/coalesce.rs:451-985"]}
{"id": "C90", "title": "A query is a merge of what its records hold", "statement": "There is one list for each record that a query selects, with the matches of that record and no others, the same for every limit and every way of breaking ties. With max_values = n the query keeps the n lists that begin best (relevance, scoredist, language, x, y, id) and returns a merge of them: each time one of the first elements that no other first element beats. So what comes first is the same for every limit, up to a tie; and if no two matches are tied, the first n matches are those of the query without limit, with a proximity point and from bins too, whatever breaks ties. With a proximity point the limit does not keep the best, though: a list is measured by its first match, the nearest by Z-order value, and is dropped even if it also holds the best match of all. (Finding.)", "quantifier": "for all stores, queries, limits of at least one, tie-breaks, proximity points, boxes, bins and profiles", "why_tests_cant": "The queue, its eviction of the least element and the order among equals depend on every selected record; tests compare a few result lists.", "anchors": ["rust-src/src/gridstore/store.rs:217-253", "rust-src/src/gridstore/store.rs:318-382"]}
{"id": "C91", "title": "Only where things are to each other counts", "statement": "Move all cells that are written, the box and the proximity point by the same motion of the grid (exchange the axes, turn them round, shift), with nothing leaving the grid: the query answers the same matches at the moved cells, with the same relevance, language flag, distance and scoredist, whatever happens to the order of Z-order values. More generally this holds for any way to put the cells elsewhere that keeps them apart, keeps the box and keeps the distances from the point. With a limit it is false: which records the limit keeps depends on where on the grid they are, so one step aside another match is returned. (Finding.)", "quantifier": "for all histories of calls, motions, queries, boxes, points, tie-breaks and profiles, with a limit of at least the number of keys", "why_tests_cant": "It relates two stores with different bytes, scan ranges and visiting orders for every motion; a test fixes one place on the grid.", "anchors": ["rust-src/src/gridstore/spatial.rs:13-190", "rust-src/src/gridstore/spatial.rs:459-463", "rust-src/src/gridstore/store.rs:130-215", "rust-src/src/gridstore/store.rs:318-382"]}
{"id": "C92", "title": "Matches are handed out one by one, and stopping early changes nothing", "statement": "streaming_get_matching returns an iterator that reads on only as far as it is asked. Whatever it would yield in full, n calls of next() return the first n items of it, and None when there are no more; in a store written by the builder no call fails, whatever the limit. For any database, whoever wrote it, and any radius but an infinite one (NaN included): if the limit leaves room for all records, computing everything succeeds exactly if no call of next() ever fails, with the same items. Otherwise it may differ: with a radius that is NaN matches are handed out before a call panics, and a limit can drop the record that would have panicked. (Finding: a NaN coalesce_radius makes next() panic in the middle of an answer.)", "quantifier": "for all databases, stores, queries, limits, numbers of calls, tie-breaks and profiles", "why_tests_cant": "It relates every number of calls on every store to the full answer, including databases no builder wrote; tests drain the iterator of a few stores.", "anchors": ["rust-src/src/gridstore/store.rs:80-215", "rust-src/src/gridstore/store.rs:318-382", "rust-src/src/gridstore/common.rs:573-629"]}
{"id": "C93", "title": "Objects do not disturb each other", "statement": "A program may make any number of builders, stores and key iterators on any directories and use them in any order. If a builder has its directory to itself, its calls have the outcomes they would have as the whole program, and the directory holds what they write. A store opened on the directory, at any moment after finish() succeeded, answers get() at any later time with exactly what the calls on that builder before its first finish() wrote, and the same in requests; before that the directory cannot be opened. Each iterator hands out the keys of its store in order, one per call, whatever is done in between. A store has the settings it was opened with, or those of GridStore::new if none were given; what is asked of an object of another class throws and changes nothing.", "quantifier": "for all programs: every sequence of constructor calls, method calls and requests on any objects and directories", "why_tests_cant": "It is about every interleaving of calls on any number of objects; tests use one builder and one store one after the other.", "anchors": ["native/src/gridstore.rs:81-88", "native/src/gridstore.rs:90-98", "native/src/gridstore.rs:270-356", "native/src/gridstore.rs:358-421", "native/src/gridstore.rs:466-504", "rust-src/src/gridstore/store.rs:256-305", "rust-src/src/gridstore/builder.rs:101-107"]}
{"id": "C94", "title": "From JavaScript calls to the results of coalesce", "statement": "Let stores be indexed from JavaScript and asked with coalesce() from JavaScript. Every result consists of entries that calls on the builders of the stores wrote and did not overwrite, for phrases the objects ask for, inside the box, with the relevance as written (less 4 % at most for another language) times the weight of the object; the tile of the first one lies in the tiles of the others, and no two share a word of the query. Conversely, below the limits and if no two stacks are a quarter apart, every entry that was written, is asked for and lies on such entries of the layers before it, or is of the last layer, leads a result, or another entry of the same feature does. The id of an object is not handed on: phrasematch_id is 0 in every entry. (Finding: coalesce ignores nearby_only and reports phrasematch_id 0.)", "quantifier": "for all sequences of JavaScript calls on the builders, all phrasematch objects, options, hash orders, tie orders and build profiles", "why_tests_cant": "It ties every accepted or rejected JavaScript call to every result of every request over any number of layers; tests compare a few requests on fixed stores.", "anchors": ["native/src/gridstore.rs:20-47", "native/src/gridstore.rs:466-484", "native/src/gridstore.rs:506-572", "rust-src/src/gridstore/coalesce.rs:24-434"]}
{"id": "C95", "title": "Whole programs", "statement": "A program makes builders (one per directory), fills and finishes them, opens stores with options of its own and makes requests, in any order. Whatever else it does in between, a store it opened holds exactly what the calls on the builder of that directory wrote between its construction and its first finish(), and has the options it was opened with; get() answers with exactly those entries of the key, or null if there are none. Every entry of every result of every request was written by such a call on the builder of the store of the object it belongs to, for a phrase the object asks for, in the box and (stackAndCoalesce) near the point; it has the index, mask and weight of that object. The tiles of a result lie in each other at the zooms the stores were opened with, no two objects share a word of the query, and for stackAndCoalesce the types decrease and no object excludes the index of the next.", "quantifier": "for all programs: every sequence of constructor calls, method calls and requests on any objects and directories without renumber(), every hash order, tie order and build profile", "why_tests_cant": "It joins every step from the first constructor call to the last request over all interleavings; tests run one fixed program.", "anchors": ["native/src/gridstore.rs:81-98", "native/src/gridstore.rs:270-421", "native/src/gridstore.rs:466-572", "rust-src/src/gridstore/builder.rs:101-153", "rust-src/src/gridstore/store.rs:256-382", "rust-src/src/gridstore/coalesce.rs:62-330", "rust-src/src/gridstore/coalesce.rs:451-985"]}
{"id": "C96", "title": "Requests in the background", "statement": "coalesce() and stackAndCoalesce() answer through a callback, after the work was done by other threads in any order, while the program goes on: it may make further requests, fill and finish builders, open stores, move iterators. What the program sees is nevertheless what it would see if it waited for each answer: every callback is called with what the request would have returned at once, at the moment it was made, and no other outcome is affected by requests under way. A callback belongs to exactly one request made before and is called at most once; a request that throws is never called back; when nothing is left to do, every other request has been. If no request panics, the work ends, in whatever order it is done. So C95 holds for what callbacks get. (Finding: answers need not come in the order of the requests.)", "quantifier": "for all programs, all interleavings of the program, the workers and the callbacks, every hash order, tie order and build profile", "why_tests_cant": "The order in which threads finish cannot be chosen by a test; the theorem covers every interleaving.", "anchors": ["native/src/gridstore.rs:15-77", "native/src/gridstore.rs:466-504"]}
{"id": "C97", "title": "Programs within range do not crash", "statement": "A JavaScript program is within range if each directory has one builder, nothing is renumbered, the calls before finish() have arguments in range (phrase ids below 2^32-1, scores up to 15 and so on), and each request asks, at zooms up to 15, for phrases that can be looked up with options of its zoom. Then nothing the program does panics or hangs, whatever else it does: calls of methods on the wrong object, with wrong arguments, on finished builders and so on only throw. And what makes sense succeeds: calls on open builders, the first finish(), opening a store on a directory that was finished, get(), iterators, and requests whose objects can be read. With requests in the background, no worker panics, the work comes to an end however it is scheduled, and every request that did not throw is then answered with results and not with an error. (Finding: outside the range this fails; a phrase id of 2^32 is silently turned into 2^32-1, on which finish() never returns.)", "quantifier": "for all programs within range, every interleaving of the background work, every hash order, tie order and build profile", "why_tests_cant": "Absence of panics and hangs is about all programs and all contents of stores; the tests run a few dozen fixed sequences.", "anchors": ["native/src/gridstore.rs:17-504", "rust-src/src/gridstore/builder.rs:184-240", "rust-src/src/gridstore/coalesce.rs:24-90", "rust-src/src/gridstore/coalesce.rs:976-1000", "rust-src/src/gridstore/store.rs:308-400"]}
{"id": "C98", "title": "Hash orders do not show in what a program does", "statement": "Every HashMap and HashSet of the code is traversed in an order that is random and may differ from one call to the next. Run the same JavaScript program twice, with any hash orders in any of its steps: the directories have the same contents byte for byte, the objects are in the same state, and everything but a request for results has the same outcome, renumbering and failing calls included. A coalesce() whose objects have masks, whose stores have zooms less than 16 apart, and the same zoom where the idx is the same, gives exactly the same results. A stackAndCoalesce() gives the same results up to their order, if nothing was cut off by the limits on nodes, on stacks per key and on results.", "quantifier": "for all programs and all assignments of hash orders to their steps", "why_tests_cant": "The order of a hash map is drawn at random in each process; a test sees one of them per run and cannot choose it.", "anchors": ["rust-src/src/gridstore/builder.rs:46-97", "rust-src/src/gridstore/builder.rs:184-240", "rust-src/src/gridstore/coalesce.rs:180-335", "rust-src/src/gridstore/coalesce.rs:451-990", "native/src/gridstore.rs:91-504"]}
{"id": "C99", "title": "What a program indexed is found", "statement": "Take any JavaScript program in which each directory has one builder and nothing is renumbered, in range. If its calls wrote an entry, under a key that an object of a later request asks for, in the directory that the object's store was opened from, and the entry lies on the ground of the request, then the request finds the feature. For coalesce(): if the entry is of the first layer, or of the last, or lies in the tile of such an entry of an earlier layer with other words, then some result begins with the feature, in the index of the object. For stackAndCoalesce(): for entries of objects that may be stacked, each in the tile of the next, some result has entries of the same objects, in the same tiles, for the same features. Both hold as long as the limits on answers, on stacks per key and on results are not reached and, for coalesce(), all results have nearly the same relevance.", "quantifier": "for all programs, all requests in them and all entries that they wrote", "why_tests_cant": "A test looks up the few features that it wrote; this is about every entry of every index, through writing, storing, opening, matching, stacking and cutting off.", "anchors": ["rust-src/src/gridstore/builder.rs:23-240", "rust-src/src/gridstore/store.rs:35-382", "rust-src/src/gridstore/coalesce.rs:24-990", "native/src/gridstore.rs:91-504"]}
{"id": "C100", "title": "Recorded requests are replayed as they were", "statement": "prepare_phrasematches() turns a file of recorded requests back into the requests: one for each line that is not empty, in order, with equal subqueries (store, weight, keys, mask, index, set of non-overlapping indexes) and options, where the data of the stores comes from dumps of the databases that the requests were made on, and it leaves all indexes needed in place and others untouched; replaying again gives the same and changes nothing. Names of files are derived by replacing every occurrence of a suffix, leftmost first. prepare_stackable_phrasematches(), which puts all stores on the data of one index, gives subqueries whose tree of stacks is that of the recorded requests but for the stores. Both need: index names without dots or slashes, one recorded set of settings per path, zooms below 32 for the second, and that indexes that are there already are complete. (Finding: a path recorded with two zooms is replayed with the first for both, and an index directory left by an interrupted load is used from then on without the entries it lacks.)", "quantifier": "for all recorded files, buckets, index directories and hash orders", "why_tests_cant": "The repository has no test of these tools; a benchmark that replays other requests than the recorded ones still runs.", "anchors": ["test_utils/src/lib.rs:156-363", "benches/prod_data.rs:14-60", "rust-src/src/gridstore/coalesce.rs:952-974", "rust-src/src/gridstore/stackable.rs:154-333"]}
{"id": "C101", "title": "For one subquery the two searches agree", "statement": "For one subquery with one key that is not a nearby search, a positive weight, an ordered phrase range, and options at the zoom of its store, coalesce() returns what the tree search over the stackable tree of that subquery returns, up to the first result that is a quarter or more below the first one, but for the phrasematch id: coalesce() puts 0 where the tree search puts the id of the key. They also fail alike. On stores built by a builder, without proximity or with a weight of at most six, nothing is cut off: the results are the same. (Finding: with proximity, a far match that is penalised for its language can be met before a near one that is not; with a weight of 8 the tree search then returns both and coalesce() drops the penalised one.)", "quantifier": "for all subqueries with one key, stores, options, hash orders, tie-breaks and build profiles", "why_tests_cant": "The tests compare the two on a handful of stores and points; all weights there are 1 and 0.5.", "anchors": ["rust-src/src/gridstore/coalesce.rs:24-178", "rust-src/src/gridstore/coalesce.rs:451-985", "tests/coalesce_test.rs:9-110"]}
{"id": "C102", "title": "Only the language penalty is out of order", "statement": "Whatever the options, a query gives its matches in an order in which a match is at most as relevant as each one before it, except that a match not penalised for its language (because it matches, or because it is within the radius) may come after one outside the radius that was penalised and has the same relevance but for the penalty. So the four stored levels of relevance always go down. (Finding: with proximity the relevances themselves do not: a far match with a high score can come before a near one that is more relevant.)", "quantifier": "for all histories of a builder, hash orders, keys, options and limits", "why_tests_cant": "The order matters only when languages do not match, proximity is given and scores differ; the tests of proximity have one language.", "anchors": ["rust-src/src/gridstore/store.rs:86-215", "rust-src/src/gridstore/store.rs:217-253", "rust-src/src/gridstore/store.rs:320-382"]}
{"id": "C103", "title": "The stores and keys of the tests are what the tests take them to be", "statement": "create_store(), with which the tests make their stores, gives for blocks in range and a zoom below 32 a store with the settings given, maximal score 1 and the whole grid of the zoom as its box; it holds for each key exactly the entries of the last block with that key (as they can be read back) and no other key, whatever the hash orders. langarray_to_langfield() gives, for languages below 128, the set of exactly these languages, the same that the binding makes of the array. (Finding: for a language of 128 or more the helper panics in a debug build and takes it modulo 128 in a release build, where the binding ignores it; for a zoom of 32 or more create_store() panics in a debug build and uses the box of the zoom modulo 32 in a release build.)", "quantifier": "for all blocks, settings, arrays of languages, hash orders and build profiles", "why_tests_cant": "These are the helpers of the tests; nothing tests them, and a wrong helper makes a test check something else.", "anchors": ["test_utils/src/lib.rs:30-90", "rust-src/src/gridstore/spatial.rs:631-636", "native/src/gridstore.rs:424-450", "tests/coalesce_test.rs:229-262"]}
{"id": "C104", "title": "A search reads each key of its request at most twice", "statement": "Whatever the tree, the order of the nodes and the rounds in which they come up, tree_coalesce() reads a key id from its store at most once for stacking, however many nodes of the tree have it. The only other reads are for the children of the root that have no children themselves, at most one for each of their keys. Everything read is a key of a subquery of the tree, with that subquery's store. So stack_and_coalesce() reads a store at most twice as often as its phrasematches have keys, although the tree may have exponentially many nodes.", "quantifier": "for all trees and lists of phrasematches, stores (even undecodable ones), options, orders of ties and hashes, build profiles and numbers of rounds", "why_tests_cant": "The tests look at results. A key that is read again gives the same results, only later; the cost shows with many overlapping layers, in some order of rounds.", "anchors": ["rust-src/src/gridstore/coalesce.rs:480-688", "rust-src/src/gridstore/coalesce.rs:952-985"]}
{"id": "C105", "title": "A search over more subqueries keeps the results of one over fewer", "statement": "Let tree_coalesce() be run over the stacks of some subqueries, and over those of the same subqueries and others, with the same options and below the limits on results. Each result of the first search is a result of the second, with the same entries, mask and relevance: always when it has two or more entries; and a single match unless its subquery stood alone in the first search (none could be put below it) and no longer does in the second, in which case its feature and cell are still found there (if it is among the first 100000 matches of its key), 0.01 less relevant than the first match there. Conversely a result of the second search all of whose entries come from the first subqueries is a result of the first one, or such a match. The same holds of stack_and_coalesce() for a request and what is left of it when some groups of phrasematches are left out. (Finding: so asking for one more layer lowers the relevance of matches in layers already asked for; the single-subquery path skips penalize_multi_context.)", "quantifier": "for all lists of distinct subqueries and their extensions, in any order, stores, options, orders of ties and hashes, build profiles and numbers of rounds", "why_tests_cant": "Each test runs one request and compares with the results expected for it; none compares two requests of which one includes the other.", "anchors": ["rust-src/src/gridstore/coalesce.rs:437-442", "rust-src/src/gridstore/coalesce.rs:500-512", "rust-src/src/gridstore/coalesce.rs:695-840", "rust-src/src/gridstore/stackable.rs:153-200"]}
{"id": "C106", "title": "What a distance is worth", "statement": "scoredist(zoom, distance, score, radius) is (6 e^min(score,7) / e^7 + 1) / min(1, distance / (radius * tiles)), with distances below one tile taken as 0.8 and zooms below 6 as 6, where tiles = 32/40 * 1.5^(zoom-14); up to a relative error of 4e-15, although it is computed from two tables of constants. The constants of E_POW are the powers of e up to a relative error of 2e-16, and tiles_per_mile_by_zoom is the formula of its comment up to 1e-15, for the zooms of its table and beyond it. So of two features the one is scored above the other whenever the formula puts it above by more than a factor of 1 + 1e-14. In particular every match of a query with a proximity point carries the Euclidean distance of its tile from that point (up to 2e-16) and, as its scoredist, the worth of that distance by the formula (up to 5e-15). And coalesce over one subquery lists equally relevant features by decreasing worth: no result is worth more, by the formula, than an equally relevant earlier one by more than a factor of 1 + 2e-14.", "quantifier": "every zoom below 64, every score, every distance up to 2^200, every radius from 2^-200 to 2^200 (IEEE doubles with rounding, against the real-valued formula); for matches: every history of writes, query, limit and tie-breaking", "why_tests_cant": "The tests compare a few values with constants printed by the program itself; a mistyped digit in a table, or a formula off for some zooms, would agree with itself.", "anchors": ["rust-src/src/gridstore/spatial.rs:485-520", "rust-src/src/gridstore/spatial.rs:537-600", "rust-src/src/gridstore/store.rs:155-215", "rust-src/src/gridstore/coalesce.rs:75-180"]}
{"id": "C107", "title": "The stacking tree lists children in a fixed order", "statement": "The children of every node of the tree returned by stackable are listed by increasing type id, within a type by decreasing weight, and with equal weights by increasing index; whatever the order of the phrasematches, the stacks dropped at the limit, and the weights (NaN counting as the largest).", "quantifier": "every list of phrasematches, every node of the tree, also beyond the limit of 2000 leaves", "why_tests_cant": "Needs all lists and all patterns of dropped nodes.", "anchors": ["rust-src/src/gridstore/stackable.rs:154-265"]}
