(** Model of the tree part of /repo/rust-src/src/gridstore/coalesce.rs:
    tree_coalesce, tree_coalesce_single, collapse_phrasematches,
    stack_and_coalesce. The rayon [par_iter().map().collect()] at 616 and 692 are
    order-preserving maps of functions that share no mutable state. *)
From Verif Require Import Prelude F64 Heap Common Builder Store Query Spatial Coalesce Stackable.

(** struct TreeCoalesceState, 341-356, is its list of contexts. The KDBush over
    the cells of [entries[0]] (350) is used through two queries. *)
Definition ctx_cell (c : coalesce_context) : option (N * N) :=
  match cc_entries c with e :: _ => Some (ge_x (ce_entry e), ge_y (ce_entry e)) | [] => None end.
(** [KDBush::exact_as_vec], 737: positions of the contexts at exactly that cell, in an
    unspecified order. *)
Definition bush_exact (ho_ : hash_oracle) (site : list N) (st : list coalesce_context) (x y : N)
  : list nat :=
  ho ho_ site nat
    (List.filter (fun i => match st !! i ≫= ctx_cell with
                           | Some (x', y') => (x =? x') && (y =? y')
                           | None => false end)
                 (seq 0 (length st))).
(** Inside a box, as at 384 and, by [search_range], 818. *)
Definition cell_in (b : bbox) (x y : N) : bool :=
  (bb_x0 b <=? x) && (x <=? bb_x1 b) && (bb_y0 b <=? y) && (y <=? bb_y1 b).
(** [KDBush::search_range(..).next().is_some()], 816-820. *)
Definition bush_any (st : list coalesce_context) (b : bbox) : bool :=
  existsb (fun c => match ctx_cell c with
                    | Some (x, y) => cell_in b x y
                    | None => false end) st.

(** struct CoalesceStep, 358-365. *)
Record tstep := TStep {
  tp_node : node;
  tp_sq : subquery;  (* node.phrasematch, which must be set *)
  tp_prev : option (list coalesce_context);
  tp_prev_zoom : N;
  tp_opts : match_opts;
  tp_possible : f64;
  tp_prox : bool }.

(** CoalesceStep::new, 368-391. *)
Definition make_step (p : profile) (n : node) (prev : option (list coalesce_context))
    (prev_zoom : N) (o : match_opts) (possible : f64) : res tstep :=
  match sn_pm n with
  | None => Panic
  | Some sq =>
      let* o' := (if mo_zoom o =? st_zoom (sq_store sq) then Ok o
                  else adjust_to_zoom p o (st_zoom (sq_store sq))) in
      let prox := match mo_prox o' with
                  | Some (x, y) => existsb (fun b => cell_in b x y) (st_bboxes (sq_store sq))
                  | None => false end in
      Ok (TStep n sq prev prev_zoom o' possible prox)
  end.

(** cmp_key, 394-401, and Ord, 404-408. *)
Definition step_cmp (a b : tstep) : comparison :=
  ord_cmp (sn_max_relev (tp_node a)) (sn_max_relev (tp_node b)) <;>
  cmp_bool (tp_prox a) (tp_prox b) <;>
  ord_cmp (st_max_score (sq_store (tp_sq a))) (st_max_score (sq_store (tp_sq b))).

(** struct KeyFetchStep, 421-427. *)
Record kfetch := KFetch {
  kf_id : N; kf_sq : subquery; kf_key : match_key; kf_opts : match_opts; kf_single : bool }.

(** penalize_multi_context, 437-442. *)
Definition penalize (c : coalesce_context) : coalesce_context :=
  match cc_entries c with
  | [] => c
  | [_] => CoalesceContext (cc_mask c) (fsub (cc_relev c) f_001) (cc_entries c)
  | e0 :: e1 :: _ =>
      if ce_mask e1 <? ce_mask e0
      then CoalesceContext (cc_mask c) (fsub (cc_relev c) f_001) (cc_entries c) else c
  end.

(** 444-449; 0.75 is at 531. *)
Definition chunk_size : N := 8.
Definition one_letter_quota : N := 8.
Definition one_word_hz_quota : N := 8.
Definition one_word_quota : N := 40.
Definition all_hz_range_quota : N := 40.
Definition all_hz_quota : N := 600.
Definition f_075 : f64 := f_lit 75 100.

(** The counters, 462-466. *)
Record quotas := Quotas { q_letter : N; q_word : N; q_word_hz : N; q_hz_range : N; q_hz : N }.

(** "if count < quota, count += 1, else continue": 544-548, 554-560, 563-567, 574-578 and 581-585. *)
Definition take_quota (get : quotas -> N) (set : quotas -> N -> quotas) (limit : N) (q : quotas)
  : bool * quotas :=
  if get q <? limit then (true, set q (get q + 1)) else (false, q).
Definition take_letter := take_quota q_letter
  (fun q n => Quotas n (q_word q) (q_word_hz q) (q_hz_range q) (q_hz q)) one_letter_quota.
Definition take_word := take_quota q_word
  (fun q n => Quotas (q_letter q) n (q_word_hz q) (q_hz_range q) (q_hz q)) one_word_quota.
Definition take_word_hz := take_quota q_word_hz
  (fun q n => Quotas (q_letter q) (q_word q) n (q_hz_range q) (q_hz q)) one_word_hz_quota.
Definition take_hz_range := take_quota q_hz_range
  (fun q n => Quotas (q_letter q) (q_word q) (q_word_hz q) n (q_hz q)) all_hz_range_quota.
Definition take_hz := take_quota q_hz
  (fun q n => Quotas (q_letter q) (q_word q) (q_word_hz q) (q_hz_range q) n) all_hz_quota.
(** [f] then [g]; the counts taken by [f] are kept when [g] fails. *)
Definition q_and (f g : quotas -> bool * quotas) (q : quotas) : bool * quotas :=
  let '(ok, q1) := f q in if ok then g q1 else (false, q1).
Definition q_when (b : bool) (f : quotas -> bool * quotas) (q : quotas) : bool * quotas :=
  if b then f q else (true, q).

(** 527-586: does the loop body reach the insertion into [unique_keys]?
    [known] says whether the key is already in [unique_keys]; [best] is the
    relevance of the best context so far, or 0. *)
Definition admit_key (is_range known : bool) (best : f64) (st : tstep) (k : match_key_id)
    : quotas -> bool * quotas :=
  let sq := tp_sq st in
  let slow := might_be_slow (sq_store sq) in
  let ranged := is_range && (count_ones (sq_mask sq) =? 1) in
  if ranged && slow && is_leaf (tp_node st) && fleb (tp_possible st) (fmul f_075 best)
  then fun q => (false, q)
  else
    q_and (q_when (ranged && negb known)
             (q_and (q_when (mki_length k =? 1) take_letter)
             (q_and (q_when (slow && negb (mki_nearby k)) take_word_hz)
                    take_word)))
          (q_when (slow && negb (mki_nearby k))
             (q_and (q_when is_range take_hz_range) take_hz)).

(** 522-525. *)
Definition key_is_range (p : profile) (k : match_key) : res bool :=
  match mk_phrase k with
  | Exact _ => Ok false
  | Range s e => let* d := usub p 32 e s in Ok (1 <? d)
  end.

(** State while one chunk is gathered, 480-490. *)
Record gather_state := GatherState {
  gt_steps : heap tstep;
  gt_chunk : list tstep;
  gt_keys : list kfetch;
  gt_unique : list (N * bool);
  gt_quotas : quotas;
  gt_added : N;
  gt_complete : bool }.

(** 506. *)
Definition is_single (st : tstep) : bool :=
  match tp_prev st with None => is_leaf (tp_node st) | Some _ => false end.
(** [unique_keys.contains], 539. *)
Definition key_known (u : list (N * bool)) (id : N) (single : bool) : bool :=
  existsb (fun k : N * bool => (id =? k.1) && Bool.eqb single k.2) u.

(** 514-599: the loop over the keys of one step. The boolean is
    [enqueued_work_in_this_iter]. *)
Definition gather_key (p : profile) (cache : gmap N (list match_entry)) (best : f64) (st : tstep)
    (a : list kfetch * list (N * bool) * quotas * bool) (k : match_key_id)
    : res (list kfetch * list (N * bool) * quotas * bool) :=
  let '(keys, uniq, q, enq) := a in
  let single := is_single st in
  if single || negb (match cache !! mki_id k with Some _ => true | None => false end) then
    let* o := (if mki_nearby k then with_nearby_only p (tp_opts st) else Ok (tp_opts st)) in
    let* is_range := key_is_range p (mki_key k) in
    let known := key_known uniq (mki_id k) single in
    let '(ok, q') := admit_key is_range known best st k q in
    if ok && negb known then
      Ok (keys ++ [KFetch (mki_id k) (tp_sq st) (mki_key k) o single],
          uniq ++ [(mki_id k, single)], q', true)
    else Ok (keys, uniq, q', enq)
  else Ok a.

(** 489-612. *)
Fixpoint gather (p : profile) (tb : tiebreak) (cache : gmap N (list match_entry))
    (contexts : cpq coalesce_context) (fuel : nat) (s : gather_state) : res gather_state :=
  match fuel with
  | O => Diverge
  | S f =>
      if chunk_size <=? gt_added s then Ok s
      else
        match hp_pop_max step_cmp tb (gt_steps s) with
        | None => Ok s
        | Some (st, steps') =>
            let* stop :=
              (if cpq_max contexts <=? cpq_len contexts then
                 match cpq_peek_min ctx_cmp tb contexts with
                 | None => Panic
                 | Some m => Ok (fleb (sn_max_relev (tp_node st)) (cc_relev m))
                 end
               else Ok false) in
            if stop then
              Ok (GatherState steps' (gt_chunk s) (gt_keys s) (gt_unique s) (gt_quotas s)
                              (gt_added s) true)
            else
              let best := match cpq_peek_max ctx_cmp tb contexts with
                          | Some c => cc_relev c | None => f_zero end in
              let* (keys, uniq, q, enq) :=
                res_foldl (gather_key p cache best st)
                          (gt_keys s, gt_unique s, gt_quotas s, false) (sq_keys (tp_sq st)) in
              let single := is_single st in
              let chunk := if single then gt_chunk s else gt_chunk s ++ [st] in
              let enq := enq || negb single in
              gather p tb cache contexts f
                (GatherState steps' chunk keys uniq q
                             (if enq then gt_added s + 1 else gt_added s) false)
        end
  end.

(** tree_coalesce_single, 865-950: the loop of coalesce_single; the result is in
    ascending id order. *)
Definition tree_coalesce_single (p : profile) (sq : subquery) (o : match_opts)
    (grids : list match_entry) (pid : N) : res (list coalesce_context) :=
  let* s := single_loop p sq o pid grids single_init in
  Ok (map (fun ie : N * coalesce_entry => single_context ie.2) 
            (isort (fun a b : N * coalesce_entry => a.1 <=? b.1) (map_to_list (ss_coalesced s)))).

(** enum KeyFetchResult, 432-435. *)
Inductive fetched :=
  | FSingle (q : cpq coalesce_context)
  | FMulti (id : N) (data : list match_entry).

(** 651 and 662-668: keep the first grid of each (x, y, id). *)
Fixpoint uniq_grids (seen : list (N * N * N)) (l : list match_entry) : list match_entry :=
  match l with
  | [] => []
  | g :: l' =>
      let k := (ge_x (me_entry g), ge_y (me_entry g), ge_id (me_entry g)) in
      if existsb (fun k' : N * N * N => bool_decide (k = k')) seen then uniq_grids seen l'
      else g :: uniq_grids (k :: seen) l'
  end.

(** Pushing contexts one by one, 645-647, 679-681 and 845-847. *)
Definition cpq_push_all (tb : tiebreak) (q : cpq coalesce_context) (l : list coalesce_context)
  : cpq coalesce_context :=
  foldl (fun q c => (cpq_push ctx_cmp tb q c).1) q l.

(** 618-672: phase 1 for one key. *)
Definition fetch_key (p : profile) (mtb : merge_tb) (tb : tiebreak) (k : kfetch) : res fetched :=
  let sq := kf_sq k in
  if kf_single k then
    let* grids := streaming_get_matching p mtb tb (sq_store sq) (kf_key k) (kf_opts k) bigger_max in
    let* cs := tree_coalesce_single p sq (kf_opts k) grids (kf_id k) in
    Ok (FSingle (cpq_push_all tb (cpq_new max_contexts) cs))
  else
    let* grids := streaming_get_matching p mtb tb (sq_store sq) (kf_key k) (kf_opts k)
                                         max_grids_per_phrase in
    Ok (FMulti (kf_id k) (uniq_grids [] (take_N max_grids_per_phrase grids))).

(** Iterating a ConstrainedPriorityQueue by value (679, 787): unspecified order. *)
Definition cpq_iter (ho_ : hash_oracle) (site : list N) (q : cpq coalesce_context)
  : list coalesce_context :=
  ho ho_ site coalesce_context (hp_items (cpq_heap q)).

(** 675-688. *)
Definition store_fetched (ho_ : hash_oracle) (tb : tiebreak) (round : N)
    (s : cpq coalesce_context * gmap N (list match_entry)) (ir : nat * fetched)
    : cpq coalesce_context * gmap N (list match_entry) :=
  match ir.2 with
  | FSingle q => (cpq_push_all tb s.1 (cpq_iter ho_ [6; round; N.of_nat ir.1] q), s.2)
  | FMulti id data => (s.1, <[id := data]> s.2)
  end.

(** State of phase 2 for one step: [relev_so_far], the contexts of the current
    key group, and [state_contexts]; 696, 718 and 707. *)
Record stack_acc := StackAcc {
  sa_relev : f64; sa_queue : cpq coalesce_context; sa_state : list coalesce_context }.

(** 738-758: stacking one entry on one parent context. *)
Definition stack_on (tb : tiebreak) (st : tstep) (e : coalesce_entry) (prev : list coalesce_context)
    (a : stack_acc) (i : nat) : res stack_acc :=
  let* parent := index prev i in
  let c := CoalesceContext (N.lor (cc_mask parent) (sq_mask (tp_sq st)))
             (fadd (cc_relev parent) (ge_relev (ce_entry e))) (e :: cc_entries parent) in
  Ok (StackAcc (if fltb (sa_relev a) (cc_relev c) then cc_relev c else sa_relev a)
               (cpq_push ctx_cmp tb (sa_queue a) (penalize c)).1
               (if is_leaf (tp_node st) then sa_state a else sa_state a ++ [c])).

(** 723-759 and 763-785: one grid of one key group. *)
Definition stack_grid (p : profile) (ho_ : hash_oracle) (tb : tiebreak) (site : list N)
    (st : tstep) (scale key_id : N) (a : stack_acc) (ig : nat * match_entry) : res stack_acc :=
  let '(gi, g) := ig in
  let* e := grid_to_coalesce_entry p g (tp_sq st) (tp_opts st) key_id in
  match tp_prev st with
  | Some prev =>
      res_foldl (stack_on tb st e prev) a
        (bush_exact ho_ (7 :: N.of_nat gi :: site) prev
                    (ge_x (me_entry g) / scale) (ge_y (me_entry g) / scale))
  | None =>
      let c := CoalesceContext (sq_mask (tp_sq st)) (ge_relev (ce_entry e)) [e] in
      Ok (StackAcc (if fltb (sa_relev a) (cc_relev c) then cc_relev c else sa_relev a)
                   (cpq_push ctx_cmp tb (sa_queue a) (penalize c)).1
                   (sa_state a ++ [c]))
  end.

(** 709-788: one key group; the queue starts empty and its contexts are appended
    to [phrasematch_contexts]. *)
Definition stack_key (p : profile) (ho_ : hash_oracle) (tb : tiebreak) (site : list N)
    (cache : gmap N (list match_entry)) (st : tstep) (scale : N)
    (a : f64 * list coalesce_context * list coalesce_context) (ik : nat * match_key_id)
    : res (f64 * list coalesce_context * list coalesce_context) :=
  let '(relev, out, state) := a in
  let '(ki, k) := ik in
  match cache !! mki_id k with
  | None => Ok a
  | Some grids =>
      let site := N.of_nat ki :: site in
      let* acc := res_foldl (stack_grid p ho_ tb site st scale (mki_id k))
                    (StackAcc relev (cpq_new max_contexts) state)
                    (combine (seq 0 (length grids)) grids) in
      Ok (sa_relev acc, out ++ cpq_iter ho_ (8 :: site) (sa_queue acc), sa_state acc)
  end.

(** 794-836: the steps for the children of a node. *)
Definition child_step (p : profile) (t : tree) (o : match_opts) (state : list coalesce_context)
    (zoom : N) (relev : f64) (acc : list tstep) (i : N) : res (list tstep) :=
  match tree_get t i with
  | None => Ok acc
  | Some child =>
      match sn_pm child with
      | None => Panic
      | Some csq =>
          let czoom := st_zoom (sq_store csq) in
          let* boxes := (if czoom =? zoom then Ok (st_bboxes (sq_store csq))
                         else res_mapM (fun b => adjust_bbox_zoom p b czoom zoom)
                                       (st_bboxes (sq_store csq))) in
          if existsb (bush_any state) boxes then
            let* s := make_step p child (Some state) zoom o (fadd relev (sq_weight csq)) in
            Ok (acc ++ [s])
          else Ok acc
      end
  end.

(** 695-840: phase 2 for one step. *)
Definition run_step (p : profile) (ho_ : hash_oracle) (tb : tiebreak) (t : tree) (o : match_opts)
    (cache : gmap N (list match_entry)) (site : list N) (st : tstep)
    : res (list coalesce_context * list tstep) :=
  let sq := tp_sq st in
  let zoom := st_zoom (sq_store sq) in
  let* d := usub p 16 zoom (tp_prev_zoom st) in
  let* scale := ushl p 16 1 d in
  let* (relev, out, state) :=
    res_foldl (stack_key p ho_ tb site cache st scale) (f_zero, [], [])
              (combine (seq 0 (length (sq_keys sq))) (sq_keys sq)) in
  match state with
  | [] => Ok (out, [])
  | _ =>
      let* next := res_foldl (child_step p t o state zoom relev) [] (sn_children (tp_node st)) in
      Ok (out, next)
  end.

(** State of the main loop, 457-466. *)
Record tree_state := TreeState {
  tr_contexts : cpq coalesce_context;
  tr_steps : heap tstep;
  tr_cache : gmap N (list match_entry);
  tr_quotas : quotas }.

(** One round of the main loop, 482-852. The boolean is [complete]. *)
Definition tree_round (p : profile) (ho_ : hash_oracle) (mtb : merge_tb) (tb : tiebreak) (t : tree)
    (o : match_opts) (round : N) (s : tree_state) : res (tree_state * bool) :=
  let* g := gather p tb (tr_cache s) (tr_contexts s)
              (S (length (hp_items (tr_steps s))))
              (GatherState (tr_steps s) [] [] [] (tr_quotas s) 0 false) in
  let* fs := res_mapM (fetch_key p mtb tb) (gt_keys g) in
  let '(contexts, cache) :=
    foldl (store_fetched ho_ tb round) (tr_contexts s, tr_cache s)
          (combine (seq 0 (length fs)) fs) in
  let* rs := res_mapM (fun ic : nat * tstep =>
                         run_step p ho_ tb t o cache [round; N.of_nat ic.1] ic.2)
                      (combine (seq 0 (length (gt_chunk g))) (gt_chunk g)) in
  let contexts := foldl (fun q (r : list coalesce_context * list tstep) => cpq_push_all tb q r.1)
                        contexts rs in
  let steps := foldl (fun h (r : list coalesce_context * list tstep) => foldl hp_push h r.2)
                     (gt_steps g) rs in
  Ok (TreeState contexts steps cache (gt_quotas g), gt_complete g).

(** 480-853: the main loop. *)
Fixpoint tree_loop (p : profile) (ho_ : hash_oracle) (mtb : merge_tb) (tb : tiebreak) (t : tree)
    (o : match_opts) (fuel : nat) (s : tree_state) : res tree_state :=
  match fuel with
  | O => Diverge
  | S f =>
      match hp_items (tr_steps s) with
      | [] => Ok s
      | _ =>
          let* (s', complete) := tree_round p ho_ mtb tb t o (N.of_nat f) s in
          if (complete : bool) then Ok s' else tree_loop p ho_ mtb tb t o f s'
      end
  end.

(** 468-478: the first-level steps. *)
Definition first_step (p : profile) (t : tree) (o : match_opts) (h : heap tstep) (i : N)
    : res (heap tstep) :=
  match tree_get t i with
  | None => Ok h
  | Some n =>
      match sn_pm n with
      | None => Panic
      | Some sq => let* s := make_step p n None 0 o (sq_weight sq) in Ok (hp_push h s)
      end
  end.

(** tree_coalesce, 451-863. *)
Definition tree_max_contexts : N := max_contexts * 20.
Definition tree_coalesce (p : profile) (ho_ : hash_oracle) (mtb : merge_tb) (tb : tiebreak)
    (fuel : nat) (t : tree) (o : match_opts) : res (list coalesce_context) :=
  let* _ := debug_assert p (match sn_pm (t_root t) with None => true | Some _ => false end) in
  let* steps := res_foldl (first_step p t o) hp_empty (sn_children (t_root t)) in
  let* s := tree_loop p ho_ mtb tb t o fuel
              (TreeState (cpq_new tree_max_contexts) steps ∅ (Quotas 0 0 0 0 0)) in
  Ok (cpq_into_desc ctx_cmp tb (tr_contexts s)).

(** collapse_phrasematches, 952-974. The IndexMap is a list in insertion order;
    weights are compared as [OrderedFloat]. *)
Definition same_group (a b : subquery) : bool :=
  match ord_cmp (sq_weight a) (sq_weight b) with
  | Eq => (sq_idx a =? sq_idx b) && (sq_mask a =? sq_mask b)
  | _ => false
  end.
Fixpoint collapse_add (pm : subquery) (acc : list subquery) : res (list subquery) :=
  match acc with
  | [] => Ok [pm]
  | g :: acc' =>
      if same_group pm g then
        let* k := first_key pm in
        Ok (Subquery (sq_store g) (sq_idx g) (sq_nonoverlap g) (sq_weight g) (sq_mask g)
                     (sq_keys g ++ [k]) :: acc')
      else
        let* acc'' := collapse_add pm acc' in Ok (g :: acc'')
  end.
Definition collapse_phrasematches (pms : list subquery) : res (list subquery) :=
  res_foldl (fun acc pm => collapse_add pm acc) [] pms.

(** stack_and_coalesce, 976-985. Every node of the tree is visited at most once,
    so the number of allocated nodes plus one is enough fuel (theorem C52). *)
Definition tree_fuel (t : tree) : nat := S (N.to_nat (am_next (t_arena t))).
Definition stack_and_coalesce (p : profile) (ho_ : hash_oracle) (mtb : merge_tb) (tb : tiebreak)
    (pms : list subquery) (o : match_opts) : res (list coalesce_context) :=
  let* collapsed := collapse_phrasematches pms in
  let t := stackable collapsed in
  tree_coalesce p ho_ mtb tb (tree_fuel t) t o.
