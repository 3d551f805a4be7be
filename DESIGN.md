# Formal model of carmen-core's gridstore

The model is written in Rocq (Coq 8.16.1) under `rocq/theories`, logical name
`Verif`. It follows `/repo/rust-src/src/gridstore` and the part of
`/repo/native/src` that does more than call it, and the tools of `/repo/test_utils` that dump,
load and replay,
function by function;
every definition of the model carries a comment with the file and lines it models.

## Conventions

* Bytes, `u8/u16/u32/u128` are `N`; the width is a hypothesis of the theorems
  (`< 2^16` ...) or an explicit wrap/panic in the model where the Rust code can
  overflow. `profile` (`Debug | Release`) selects panic or wrap-around.
* Fallible code returns `res A := Ok | Err | Panic | Diverge`. `Diverge` stands for
  a loop that does not end; loops without an obvious measure take fuel, and the
  theorems on termination in `Props_tree.v` and `Props_storage.v` show that the fuel given is enough.
* `f64` is the standard library's `spec_float` with `prec = 53`, `emax = 1024`;
  `+ - * / sqrt` are `SFadd, SFsub, SFmul, SFdiv, SFsqrt`, i.e. IEEE-754 binary64
  round-to-nearest-even. Decimal literals are correctly rounded quotients. The
  constants of `e_pow_table` and `tiles_per_mile_table` are the literals of the source.
* Hash maps are finite maps (std++ `gmap`); their iteration order is an arbitrary
  permutation supplied by an oracle argument (`hash_oracle`). The oracle gets a site,
  so two iterations of the same map may give different orders. Theorems hold for every
  oracle.
* Binary heaps (`MinMaxHeap`, itertools' `kmerge`) are lists plus an oracle
  (`tiebreak`, `merge_tb`) that chooses among the maximal (minimal) elements. The
  oracle sees the full content of the heap, so every deterministic heap
  implementation is an instance.
* RocksDB is a finite map from byte strings to byte strings, iterated in
  lexicographic order; a `put` is atomic; a crash keeps a prefix of the puts.
* Iterators are lists: everything an iterator would yield is computed. For
  `streaming_get_matching`, where the source hands out one match at a time, `Lazy.v`
  models the calls of next() and C92 compares the two: an answer is handed out as it
  stands; a failure of the model may be one that a caller who stops early does not see.
  The cells of one relevance and score are decoded as a whole in both.
* Rayon's parallel iterators of `tree_coalesce` are sequential maps: their closures
  share only read-only data, and their results are collected in order.

## Model

| file | models |
|------|--------|
| `Prelude.v`, `F64.v`, `Heap.v` | results, checked integers, doubles, heaps |
| `Morton.v` | external crate `morton` (contract) |
| `Format.v` | `gridstore_format.rs`: the byte layout, writers and readers |
| `Common.v` | `common.rs`: keys, options, zoom changes, contexts and their order, bounded queue |
| `Builder.v` | `builder.rs`, and the RocksDB contract |
| `Spatial.v` | `spatial.rs`: bounding boxes, proximity, distances |
| `Store.v` | `store.rs`: `get`, `keys`, `iter`, `streaming_get_matching` |
| `Lazy.v` | the iterators inside `streaming_get_matching`, one item at a time |
| `Query.v` | `PhrasematchSubquery` |
| `Stackable.v` | `stackable.rs` |
| `Coalesce.v`, `Tree.v` | `coalesce.rs`: flat part and tree part |
| `Native.v` | `native/src/gridstore.rs`: language sets, builder state, keys iterator, conversion of subqueries |
| `Session.v` | `native/src/gridstore.rs` as a whole: objects made on directories and used in any order |
| `Background.v` | its background tasks (15-77, 466-504): queue, workers, callbacks |
| `Fuzzy.v` | `native/src/fuzzy_phrase.rs`: builder state, casts, buffers of ids |
| `Dump.v` | `test_utils/src/lib.rs`: `dump_db_to_json`, `load_db_from_json` |
| `Replay.v` | `test_utils/src/lib.rs`: `ensure_store`, `prepare_phrasematches`, `prepare_stackable_phrasematches` (the bucket is a fixed map; JSON and lz4 are left out) |
| `Testing.v` | `test_utils/src/lib.rs`: `langarray_to_langfield`, `create_store` |
| `Tests.v`, `CoalesceTests.v`, `JsTests.v` | assertions of the repository's own tests, Rust and JavaScript, evaluated on the model |

Not modelled:

* The crate `fuzzy-phrase`. Its bindings are modelled over a record of its operations,
  about which nothing is assumed; opening a builder or a set (`init`) is not modelled.
* What `neon` and `neon_serde` do before a Rust value exists. `Native.v` starts from
  the outcome: a value, or nothing, in which case the call throws. Float-to-integer
  casts saturate as in Rust. JavaScript exceptions are `Err`. In `Session.v`
  requests are answered at once; `Background.v` has them answered later, by workers, and proves that this makes
  no difference (finishing a task is one step; a panic in a worker ends the process). `Session.v` assumes of RocksDB that a directory without a
  database cannot be opened for reading and that an open store keeps its contents.
* The rest of `test_utils`: the downloading itself and `round`.
* `serde` derives (JSON written by the dump tool is taken to be read back as the same record), `Debug` output, `Display` of errors: an error is just `Err`.
* The RocksDB options, compression, the file system, concurrency of several
  processes on one directory.
* Memory limits: `usize` is unbounded except where the source casts to a fixed width.

## Specifications and proofs

| file | content |
|------|---------|
| `Spec.v`, `Spec_match.v`, `Spec_coalesce.v`, `Spec_stack.v`, `Spec_tree.v`, `Spec_quota.v`, `Spec_complete.v`, `Spec_exact.v`, `Spec_native.v`, `Spec_js.v`, `Spec_total.v`, `Spec_flat.v`, `Spec_leaf.v`, `Spec_room.v`, `Spec_ground.v`, `Spec_best.v`, `Spec_fuzzy.v`, `Spec_rebuild.v`, `Spec_perm.v`, `Spec_disk.v`, `Spec_space.v`, `Spec_frame.v`, `Spec_twin.v`, `Spec_relabel.v`, `Spec_sum.v`, `Spec_end.v`, `Spec_merge.v`, `Spec_move.v`, `Spec_lazy.v`, `Spec_session.v`, `Spec_flatend.v`, `Spec_program.v`, `Spec_background.v`, `Spec_safe.v`, `Spec_hash.v`, `Spec_index.v`, `Spec_replay.v`, `Spec_agree.v`, `Spec_level.v`, `Spec_work.v`, `Spec_more.v`, `Spec_formula.v` | vocabulary of the theorems, independent of the helpers of the model |
| `Lists.v`, `Bits_proofs.v`, `Cmp_proofs.v`, `Float_proofs.v`, `Real_proofs.v`, `Formula_proofs.v` | lists, bits, orders, doubles (the last two through Flocq) |
| `Format_proofs.v`, `Record_proofs.v`, `Builder_proofs.v`, `Finish_proofs.v`, `Store_proofs.v`, `Order_proofs.v`, `Unshared_proofs.v`, `Size_proofs.v`, `Bins_proofs.v`, `History_proofs.v`, `Durable_proofs.v`, `Rebuild_proofs.v`, `Disk_proofs.v` | storage: what is written is what is read |
| `Spatial_proofs.v`, `Merge_proofs.v`, `Match_proofs.v`, `Query_proofs.v`, `Binquery_proofs.v`, `Lazy_proofs.v` | matching queries |
| `Queue_proofs.v`, `Coalesce_proofs.v`, `Multi_proofs.v`, `Flat_proofs.v`, `Owed_proofs.v`, `Max_proofs.v`, `Window_proofs.v` | flat coalesce |
| `Stack_proofs.v`, `Arena_proofs.v`, `Best_proofs.v`, `Sibling_proofs.v` | the stacking tree |
| `Tree_proofs.v`, `Quota_proofs.v`, `Limit_proofs.v`, `Term_proofs.v`, `Complete_proofs.v`, `Exact_proofs.v`, `Total_proofs.v`, `Leaf_proofs.v`, `Bound_proofs.v`, `Agree_proofs.v`, `Level_proofs.v` | `tree_coalesce` |
| `Native_proofs.v`, `Session_proofs.v` | the Node bindings |
| `Profile_proofs.v` | debug and optimised builds compared |
| `Examples.v` | data for the examples |
| `Props_*.v` | the property theorems, each followed by `Print Assumptions`, with examples that meet their hypotheses |

How the properties are proved:

* C01-C10, C23, C39 (storage): writer and reader at byte level; reader after writer is the
  identity; the builder's content is a function of the written entries; the key codec
  is injective. The hypotheses are about the history of calls, not about the database.
* C11-C13, C17-C22, C24 (matching): the result of `streaming_get_matching` is
  characterised as a multiset in terms of the stored entries; its order follows from the
  invariant of the merges.
* C14-C16, C30, C31 (spatial): arithmetic on Z-order codes, and the loop invariant of
  the binary search.
* C25-C29 (renumbering, interruption, overwriting): histories of calls.
* C32-C35 (zoom): integer arithmetic for both profiles.
* C36, C37 (distances): the real-number semantics of the same operations, by Flocq.
* C38, C40-C45 (queue, flat coalesce): invariants over the loops, for every oracle.
* C46-C49, C57 (stacking tree): invariants of the recursion over an arena with eviction.
* C50-C53, C60-C62 (tree coalesce): one round is taken apart into the steps popped, the
  keys fetched and the steps run; C50-C53 keep an invariant over the rounds; C60 and C61 follow a stack
  through the rounds until it is returned or lost; C62 keeps the branches of the open
  steps apart.
* C54-C56, C58, C59, C63 (collapsing, bindings): functional models.
* C64 (`stack_and_coalesce`): C60 and C62 for the groups, carried back to their members.
* C65, C66 (no panic): an invariant of the search that rules out every panicking operation
  of the model, together with termination.
* C67 (hash order): a stable sort is determined by the order within each class of ties, and
  no tie spans two buckets of the hash map.
* C68 (flat coalesce, completeness): an invariant over the layers says where the context of
  each processed match is held; the final sort and filter are followed for one context.
* C69, C70 (flat coalesce, no room left, window): invariants over the same steps.
* C71 (leaves of the first level): the rounds followed as for C60, and the prefix of the
  records of one key up to the record in question.
* C72 (hash order of the tree search): below the limits both results are exactly the set
  that C61, C62 and the leaves describe, and neither holds anything twice.
* C73 (build profiles): each operation of the model compared in the two profiles.
* C74 (origin and place of results): C50, C59, C42 and C44 for what an entry is, C11 for what
  was written, C32 and C34 for where it lies.
* C75 (nothing below the limits is missed): the other direction, by C61 and C71.
* C76 (the most relevant are kept): C61 with the reason for the end of the search kept, and
  a bound of the relevance of a stack by the sum of its weights, by Flocq.
* C77 (flat coalesce finds what was written): C68 and C42, with C11 for what a key is answered.
* C78, C79 (phrase sets, indexing with their ids): functional model of the bindings; C25 and
  C56 for the session, C11 for the query, with the written entries followed through the map.
* C80 (dump and load): the load is a history of inserts whose entries are those of the original
  rounded once more; then C04.
* C81 (a directory written twice): the database is the second one laid over the first; the proof of
  C11 for bins, on a database whose bins come from two histories.
* C82 (order of the subqueries): what C72's proof says is returned does not depend on the tree but on
  the legal chains; a tree below its limit has one node per legal chain, so the quotas do not either.
* C83 (bytes on disk): the layout is a relation between bytes and lists (`Spec_disk.v`), without the
  encoders and decoders of the model. Every layout of a part has one byte form, so the invariant of the
  writer (C09) gives one direction and the readers' lemmas the other; the query is C11 once more, on a
  database of which only the layout is known.
* C84 (what a record costs): the table of id lists already written is the set of lists seen; each step
  of the encoder adds the size of what it appends.
* C85 (what is not asked for): the records of the range are equal byte for byte, because the bytes of a
  record are a function of the set of its entries; the rest of a query sees only these records.
* C86 (the same for whole requests): two runs of coalesce or stack_and_coalesce in step, related by
  equality everywhere but in the stores. The queue of steps holds stores, so its tie-break must not look
  into the steps (`by_order`), only at how they compare, as MinMaxHeap does. The keys may differ too, if
  they are used and answered alike.
* C87 (ids are names): the records of the range, with their keys renamed, are the records of the other
  store in the same order; the queue reads a key only for its languages. C86 carries this to requests.
* C88 (queries add up): an answer from single records is, up to order, the image of a list without
  repetitions of (key, entry) pairs; two such lists with the same members are permutations of each other.
* C89 (JavaScript end to end): what the accepted calls write is stated on the calls themselves (`js_holds`);
  C56 and C63 give the native calls and subqueries, C74 and C64 the results.
* C90 (a merge): the order of the queue is stated field by field (`beats`), the merge as an inductive
  relation. The limited merge and the full one run in step while an untouched list is left.
* C91 (motions): what is written moves along, and a distance is a function of its square (C37); then as for C88.
* C92 (item by item): a lazy iterator is the list of what it yields and how it ends; the heap of the
  iterator runs in step with that of the model. Whether distances are NaN depends on radius and zoom
  only, so all or none of the comparisons of a merge panic.
* C93 (many objects): a program is a list of steps on a world of directories and objects. A step
  changes only the object it is addressed to, and a directory only by a finish() that succeeds. So
  the steps addressed to one builder, taken by themselves, are a run of its own calls, to which C56,
  C01 and C89 apply.
* C94 (coalesce from JavaScript): C44 and C77 through the same conversion of objects and calls as C89.
* C95 (whole programs): C93, C89 and C94 joined over the list of deeds of a program; `filled` and `opened` are read off
  that list, so no state of the model occurs in the statements except the run itself.
* C96 (requests in the background): a labelled transition system with a queue, workers that finish tasks in any order
  and callbacks. `deeds_of` reads the deeds of the waiting program off the events; the theorem is a refinement of
  `js_session`, so C93 to C95 carry over.
* C97 (programs within range): C23, C01, C58, C65 and C66 for the objects that C95 finds behind each deed; an induction
  over the run for what an open builder or an iterator holds. In the background, every task was a request in range, so
  C96's progress applies.
* C98 (hash orders in programs): `steps` runs a program with a hash order of its own for every step. finish() gives the
  same map for all of them (folds over distinct keys commute, the encoder sorts, keys of 128-bit language sets are
  distinct), so all runs go through the same worlds; requests then by C67 and C72.
* C99 (what programs find): C89_found and C94_found for the objects of a request; the directory a store was opened from and
  what its builder wrote are unique (`opened_unique`, `filled_unique`), so the statements quantify over deeds alone.
* C104 (reads): the reads are listed by a function that runs the rounds of the model (`loop_reads`). Within a round the
  keys are distinct (`keyed`); those for stacking are not in the cache before it and are in the cache after it; the
  steps without parents form a pool from which each round takes away what it reads.
* C105 (more subqueries): both results are characterised by C72 (`room_all`, the exact results of C62); legal stacks of
  the smaller request are legal in the larger one (`legal_more`), and a node has children iff its stack can grow
  (`children_legal`), which decides whether a lone match is penalised. Collapsing commutes with leaving out groups (`collapse_filter`).
* C106 (values of distances): e from the alternating series of 1/e (`e_bounds`); relative errors of products, quotients
  and sums are added up (`close_mul`, `close_div`, `close_add`); the tiles per mile by exact fractions for each zoom.
  For matches, C37 gives the rounded distance, and distances of at least a tile stay so when rounded (`rnd_sqrt`).
  The order of results is that of C40.
* C107 (order of children): an invariant of the visit like that of the siblings of C62, with the sorted bins (`bins_sorted`).
* C103 (test helpers): blocks are a history of inserts (`written_blocks`), so C01 and C04 apply; the box by arithmetic on
  powers of two (`box_edge`); languages bit by bit, compared with the binding through C55.
* C100 (replay): an induction over the lines (`lines_ok`) with the stores opened so far and the indexes in place as invariants;
  names are related to files by `names_files` (C100_replace: str::replace as modelled, for all strings); the data is that of C80. C100_stores: collapsing and stacking look at a store's
  zoom and type only.
* C101 (one subquery): the loop of both is `single_loop`, which carries the phrasematch id along unchanged (`loop_pid`); sorting
  and the bounded queue select the same forty since no two results compare equal (`top_unique`). C101_exact: no match
  is a quarter above one before it (C102, and real-number bounds on the weighted penalty), so all that is kept stays within
  a quarter of the greatest seen (`near_top`).
* C102 (levels): a record is decoded in groups of one level, which go down since the builder sorts; the queue takes the greatest
  head, and the order of heads refines that of levels (`key_level`, `drain_levels`).

Claims that turned out false are kept as `..._refuted` theorems with a computed
witness, next to the theorem that says what holds instead; `properties.jsonl`
states what holds and names the finding.

## Trusted base

* Coq's kernel (and `vm_compute`, used for the witnesses and examples).
* What `Print Assumptions` prints below each theorem of `Props_*.v`. All are closed
  under the global context, except those of `Props_float.v` (C36, C37), `Props_best.v` (C76), `Props_move.v` (C91) `Props_agree.v` (C101_exact) `Props_formula.v` and `Props_worth.v` (C106), which use the
  axioms of the standard library's real numbers:
  `ClassicalDedekindReals.sig_not_dec`, `ClassicalDedekindReals.sig_forall_dec`,
  `FunctionalExtensionality.functional_extensionality_dep`, `Classical_Prop.classic`.
* The correspondence between the Rust source and the model, which is by reading, with
  the repository's own tests evaluated on the model as a check (`Tests.v`,
  `CoalesceTests.v`, `JsTests.v`).
* The contracts of external crates listed under Conventions.

## Testing the theorems

Wrong programs: definitions of the model are edited in a copy outside this directory,
one edit at a time, and everything is rebuilt. An edit that no theorem notices either
does not change behaviour, or shows that a theorem is too weak; the latter are
tightened. `seeded/LOG.jsonl` lists the edits, the theorems that failed and what was
tightened. Some edits were chosen by hand to break a claim, others were made
mechanically (comparison operators, constants, branches). `no_longer_built` lists the
property files that depend on the edited file and were not rebuilt after the edit.
